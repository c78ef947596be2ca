(** What a requirements file says. *)
From Verif Require Import GoStr Types OsvSpec Path Scan.

(** ** lines *)
Fixpoint slashes (n : nat) : string := match n with O => "" | S n' => String "\" (slashes n') end.
Definition ends_plain (s : string) : Prop := forall q, s <> q +s+ "\".
(** it ends with an odd number of backslashes *)
Definition continued (s : string) : Prop := exists p n, s = p +s+ slashes (2 * n + 1) /\ ends_plain p.
(** lines joined with their continuations *)
Inductive joined : list string -> list string -> Prop :=
| jo_nil : joined [] []
| jo_line : forall t ts ls, ~ continued t -> joined ts ls -> joined (t :: ts) (t :: ls)
| jo_more : forall p t ts ls, continued (p +s+ "\") -> joined ((p +s+ t) :: ts) ls -> joined ((p +s+ "\") :: t :: ts) ls
| jo_end : forall p, continued (p +s+ "\") -> joined [p +s+ "\"] [p].
(** the part before the comment: a # at the start or after white space *)
Fixpoint before_comment (open : bool) (s : string) : string :=
  match s with
  | "" => ""
  | String c t => if open && Ascii.eqb c "#" then "" else String c (before_comment (is_re_space c) t)
  end.
Definition line_text (line : string) : string := trim_space (before_comment true line).

(** what a requirement asks for *)
Fixpoint upto (c : ascii) (s : string) : string :=
  match s with "" => "" | String d t => if Ascii.eqb c d then "" else String d (upto c t) end.
Definition occurs (op s : string) : Prop := exists a b, s = a +s+ op +s+ b.
Definition first_at (op s a b : string) : Prop :=
  s = a +s+ op +s+ b /\ forall a' b', s = a' +s+ op +s+ b' -> String.length a <= String.length a'.
(** the operators; of several in one line the last one here counts *)
Definition ops : list string := ["=="; ">="; "~="; "!="].
Definition pypi (name version : string) : Pkg := mkPkg (pep503 (upto "[" name)) version "" "PyPI" "PyPI".
Inductive requirement (s : string) : Pkg -> Prop :=
| rq_any : (forall op, In op ops -> ~ occurs op s) -> requirement s (pypi s "0.0.0")
| rq_op : forall l op l' a b, ops = l ++ op :: l' -> (forall o, In o l' -> ~ occurs o s) -> first_at op s a b ->
    requirement s (pypi (trim_space a) (if seqb op "!=" then "0.0.0" else upto " " (trim_space b))).

Inductive line_kind := Include (file : string) | Nothing | Requires (p : Pkg).
Definition skipped (s : string) : Prop :=
  s = "" \/ exists p r, In p ["-"; "https://"; "http://"; "."; "/"] /\ s = p +s+ r.
Inductive line_is (s : string) : line_kind -> Prop :=
| li_include : forall f, s = "-r " +s+ f -> line_is s (Include f)
| li_skip : (forall f, s <> "-r " +s+ f) -> skipped s -> line_is s Nothing
| li_req : forall p, ~ skipped s -> requirement s p -> line_is s (Requires p).
(** the contents of a file, line by line *)
Definition says (content : string) (ks : list line_kind) : Prop :=
  exists ls, joined (fst (scan content)) ls /\ Forall2 (fun line k => line_is (line_text line) k) ls ks.

(** ** files *)
Section WithFiles.
Variable files : string -> txt.
Definition readable (path : string) : Prop :=
  exists content, files path = Text content false /\ snd (scan content) = false.
Definition line_of (path : string) (k : line_kind) : Prop :=
  exists content fails ks, files path = Text content fails /\ says content ks /\ In k ks.
Definition requires (path : string) (p : Pkg) : Prop := line_of path (Requires p).
Definition includes (path file : string) : Prop :=
  exists f, line_of path (Include f) /\ file = path_join [path_dir path; f].
Inductive reach (root : string) : string -> Prop :=
| re_root : reach root root
| re_incl : forall q r, reach root q -> includes q r -> reach root r.
End WithFiles.
