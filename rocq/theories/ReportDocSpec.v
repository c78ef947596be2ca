(** The document a run prints with --json, for those who read it. *)
From Verif Require Import GoStr Types Json JsonRound OsvJsonSpec Lockfile Report.

Section WithTime.
Variable rfc3339 : string -> option string.
(** one package: its details, the advisories against it and the ignored ones *)
Inductive row_doc : json -> PkgVulns -> Prop :=
| rw_doc : forall l r na ve co ec cm vs is,
    member l "name" na -> member l "version" ve -> member l "commit" co -> member l "ecosystem" ec -> member l "compareas" cm ->
    member l "vulnerabilities" (Some (JArr vs)) -> member l "ignored" (Some (JArr is)) ->
    says na (p_name (pv_pkg r)) -> says ve (p_version (pv_pkg r)) -> says co (p_commit (pv_pkg r)) ->
    says ec (p_eco (pv_pkg r)) -> says cm (p_cmp (pv_pkg r)) ->
    Forall2 (osv_doc rfc3339) vs (pv_vulns r) -> Forall2 (osv_doc rfc3339) is (pv_ignored r) -> row_doc (JObj l) r.
Inductive file_doc : json -> Report -> Prop :=
| fd_doc : forall l r pa as_ rows,
    member l "filepath" pa -> member l "parsedas" as_ -> member l "packages" (Some (JArr rows)) ->
    says pa (lf_path (rp_lock r)) -> says as_ (lf_as (rp_lock r)) -> Forall2 row_doc rows (rp_pkgs r) -> file_doc (JObj l) r.
Inductive results_doc : json -> list Report -> Prop :=
| rs_doc : forall l fs rs, member l "results" (Some (JArr fs)) -> Forall2 file_doc fs rs -> results_doc (JObj l) rs.
(** advisories are written as documents that say what they are *)
Definition faithful (osv_json : OSV -> json) : Prop := forall o, sound rfc3339 o -> good (osv_json o) = true /\ osv_doc rfc3339 (osv_json o) o.
(** the texts of a report are UTF-8 *)
Definition pkg_texts (p : Pkg) : list string := [p_name p; p_version p; p_commit p; p_eco p; p_cmp p].
Definition report_texts (r : Report) : list string := [lf_path (rp_lock r); lf_as (rp_lock r)] ++ flat_map (fun x => pkg_texts (pv_pkg x)) (rp_pkgs r).
Definition sound_report (r : Report) : Prop :=
  Forall utf8 (report_texts r) /\ Forall (fun x => Forall (sound rfc3339) (pv_vulns x ++ pv_ignored x)) (rp_pkgs r).
End WithTime.
(** what a report shows *)
Definition visible (r : Report) : string * string * list PkgVulns := (lf_path (rp_lock r), lf_as (rp_lock r), rp_pkgs r).
