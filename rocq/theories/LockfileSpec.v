(** Specifications for lockfile parsing and CSV input, independent of the
    code's helpers. *)
From Coq Require Import Sorted.
From Verif Require Import GoStr Types.

(** byte-wise lexicographic order *)
Inductive str_lt : string -> string -> Prop :=
| sl_nil : forall c s, str_lt "" (String c s)
| sl_head : forall c d s t, (N_of_ascii c < N_of_ascii d)%N -> str_lt (String c s) (String d t)
| sl_tail : forall c s t, str_lt s t -> str_lt (String c s) (String c t).

(** packages ordered by name, and by version among equal names *)
Definition pkg_le (a b : Pkg) : Prop :=
  str_lt (p_name a) (p_name b)
  \/ (p_name a = p_name b /\ (str_lt (p_version a) (p_version b) \/ p_version a = p_version b)).
Definition sorted_packages (given listed : list Pkg) : Prop :=
  Permutation given listed /\ StronglySorted pkg_le listed.

(** the distinct non-empty ecosystems of the packages, ascending *)
Definition ecosystems_of (ps : list Pkg) (es : list string) : Prop :=
  StronglySorted str_lt es /\ forall e, In e es <-> e <> "" /\ exists p, In p ps /\ p_eco p = e.

(** the supported lockfiles (README), ordered ignoring case *)
Definition supported : list string :=
  ["buildscript-gradle.lockfile"; "bun.lock"; "Cargo.lock"; "composer.lock"; "Gemfile.lock"; "go.mod";
   "gradle.lockfile"; "mix.lock"; "package-lock.json"; "packages.lock.json"; "pdm.lock"; "Pipfile.lock";
   "pnpm-lock.yaml"; "poetry.lock"; "pom.xml"; "pubspec.lock"; "pylock.toml"; "renv.lock";
   "requirements.txt"; "uv.lock"; "yarn.lock"].

(** the name of the file at a path *)
Definition file_name (path name : string) : Prop :=
  name <> "" /\ has_char "/" name = false /\ (path = name \/ exists dir, path = dir +s+ "/" +s+ name).

(** ** CSV *)
Definition nl : ascii := "010".
Definition quote : ascii := """".
(** a quoted field's content: quotes are doubled *)
Fixpoint doubled (v : string) : string :=
  match v with
  | "" => ""
  | String c v' => if Ascii.eqb c quote then String quote (String quote (doubled v')) else String c (doubled v')
  end.
(** a field as written, and its value *)
Inductive field_text : string -> string -> Prop :=
| ft_plain : forall s, has_char quote s = false -> has_char "," s = false -> has_char nl s = false -> field_text s s
| ft_quoted : forall v, field_text (String quote (doubled v +s+ String quote "")) v.
Definition record_text (t : string) (fields : list string) : Prop :=
  exists ts, ts <> [] /\ Forall2 field_text ts fields /\ t = join "," ts.
(** a text: records on lines of their own, blank lines ignored *)
Inductive csv_text : string -> list (list string) -> Prop :=
| ct_end : csv_text "" []
| ct_blank : forall s rs, csv_text s rs -> csv_text (String nl s) rs
| ct_last : forall t r, record_text t r -> t <> "" -> csv_text t [r]
| ct_record : forall t r s rs, record_text t r -> t <> "" -> csv_text s rs -> csv_text (t +s+ String nl s) (r :: rs).

(** what one record stands for *)
Inductive csv_package : list string -> Pkg -> Prop :=
| cp_ecosystem : forall eco cmp name version more, eco <> "" -> name <> "" ->
    csv_package (eco :: cmp :: name :: version :: more)
      (mkPkg name version "" eco (if seqb cmp "" then eco else cmp))
| cp_commit : forall cmp name commit more, name <> "" -> commit <> "" ->
    csv_package ("" :: cmp :: name :: commit :: more) (mkPkg name "" commit "" cmp).
