(** What a database must say about advisories it cannot use. *)
From Verif Require Import GoStr Types Osv OsvSpec MemDB ZipDB ZipSpec DirDB DirDBSpec Lockfile.

Section WithErrors.
Variables json_err read_err : string -> string.
Variable dec_osv : string -> OSV * bool.
Definition invalid_notice (name content : string) : string := name +s+ " is not a valid JSON file: " +s+ json_err content +s+ newline.

(** the entries of an archive that should hold an advisory *)
Definition looked_at (wd : string) (e : string * option string) : Prop :=
  (exists rest, fst e = wd +s+ rest) /\ (exists stem, fst e = stem +s+ ".json").
Inductive zip_notice (e : string * option string) : string -> Prop :=
| zn_unreadable : snd e = None -> zip_notice e ("Could not read " +s+ fst e +s+ ": " +s+ read_err (fst e) +s+ newline)
| zn_invalid : forall content, snd e = Some content -> snd (dec_osv content) = true -> zip_notice e (invalid_notice (fst e) content).
(** every entry that should hold an advisory is loaded or named in a notice,
    in order *)
Inductive loaded_or_told (wd : string) : list (string * option string) -> list OSV -> list string -> Prop :=
| lt_nil : loaded_or_told wd [] [] []
| lt_loaded : forall e l o os ts, wanted wd dec_osv e o -> loaded_or_told wd l os ts -> loaded_or_told wd (e :: l) (o :: os) ts
| lt_told : forall e l os t ts, looked_at wd e -> zip_notice e t -> loaded_or_told wd l os ts -> loaded_or_told wd (e :: l) os (t :: ts)
| lt_other : forall e l os ts, ~ looked_at wd e -> loaded_or_told wd l os ts -> loaded_or_told wd (e :: l) os ts.

(** what is said of a place in a directory *)
Inductive dir_notice (name : string) (root : node) (q : list string) : string -> Prop :=
| dn_invalid : forall content, at_path root q (NFile (Some content)) -> (exists stem, last q name = stem +s+ ".json") -> snd (dec_osv content) = true ->
    dir_notice name root q (invalid_notice (last q name) content)
| dn_unreadable : at_path root q (NFile None) -> (exists stem, last q name = stem +s+ ".json") -> dir_notice name root q (newline +s+ read_err (last q name))
| dn_directory : forall l, at_path root q (NDir (Some l)) -> (exists stem, last q name = stem +s+ ".json") -> dir_notice name root q (newline +s+ read_err (last q name))
| dn_unlisted : at_path root q (NDir None) -> dir_notice name root q (newline +s+ "    " +s+ read_err (last q name)).
End WithErrors.

(** an entry for the package that says nothing about versions *)
Definition bare (a : Affected) : Prop := a_ranges a = [] /\ a_versions a = [].
Definition names (a : Affected) (pkg : Pkg) : Prop := same_ecosystem (op_eco (a_pkg a)) (p_eco pkg) /\ match_name (a_pkg a) (p_name pkg).
Inductive bare_entries (pkg : Pkg) : list Affected -> nat -> Prop :=
| be_nil : bare_entries pkg [] 0
| be_bare : forall a l n, names a pkg -> bare a -> bare_entries pkg l n -> bare_entries pkg (a :: l) (S n)
| be_other : forall a l n, ~ (names a pkg /\ bare a) -> bare_entries pkg l n -> bare_entries pkg (a :: l) n.
Definition bare_notice (id : string) : string := id +s+ " does not have any ranges or versions - this is probably a mistake!" +s+ newline.
