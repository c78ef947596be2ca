(** The document --list-packages --json prints, for those who read it. *)
From Verif Require Import GoStr Types Json JsonRound OsvJsonSpec Lockfile ReportDocSpec.

Inductive pkg_doc : json -> Pkg -> Prop :=
| pd_doc : forall l p na ve co ec cm,
    member l "name" na -> member l "version" ve -> member l "commit" co -> member l "ecosystem" ec -> member l "compareas" cm ->
    says na (p_name p) -> says ve (p_version p) -> says co (p_commit p) -> says ec (p_eco p) -> says cm (p_cmp p) -> pkg_doc (JObj l) p.
(** no packages may be written as null *)
Inductive lock_doc : json -> Lockfile -> Prop :=
| kd_doc : forall l lf pa as_ rows,
    member l "filepath" pa -> member l "parsedas" as_ -> member l "packages" (Some (JArr rows)) ->
    says pa (lf_path lf) -> says as_ (lf_as lf) -> Forall2 pkg_doc rows (lf_pkgs lf) -> lock_doc (JObj l) lf
| kd_none : forall l lf pa as_,
    member l "filepath" pa -> member l "parsedas" as_ -> member l "packages" (Some JNull) ->
    says pa (lf_path lf) -> says as_ (lf_as lf) -> lf_pkgs lf = [] -> lock_doc (JObj l) lf.
Inductive listing_doc : json -> list Lockfile -> Prop :=
| sd_doc : forall l fs ls, member l "results" (Some (JArr fs)) -> Forall2 lock_doc fs ls -> listing_doc (JObj l) ls.
Definition lock_texts (l : Lockfile) : list string := [lf_path l; lf_as l] ++ flat_map pkg_texts (lf_pkgs l).
