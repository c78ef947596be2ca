(** Specification: where a listing has null instead of a list. *)
From Verif Require Import GoStr Types Json JsonRound OsvJsonSpec Lockfile ReportDocSpec ListDocSpec.

Definition nil_names : list string := ["Gemfile.lock"; "mix.lock"; "gradle.lockfile"; "buildscript-gradle.lockfile"; "csv-row"; "csv-file"].
Definition null_listed (l : Lockfile) : Prop := lf_pkgs l = [] /\ In (lf_as l) nil_names.
(** null exactly for these, and otherwise a list *)
Inductive exact_doc : json -> Lockfile -> Prop :=
| ed_doc : forall fields l v, lock_doc (JObj fields) l -> member fields "packages" (Some v) -> (v = JNull <-> null_listed l) -> exact_doc (JObj fields) l.
Inductive exact_listing : json -> list Lockfile -> Prop :=
| el_doc : forall fields fs ls, member fields "results" (Some (JArr fs)) -> Forall2 exact_doc fs ls -> exact_listing (JObj fields) ls.
