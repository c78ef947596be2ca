(** Runs with --json whose document cannot be printed. *)
From Verif Require Import GoStr Types Osv Lockfile Report Main MainSpec FullRun FullRunSpec.

(** the advisories that the reports of a run list, in the order of the document *)
Definition listed (tr : list ev) : list OSV :=
  flat_map (fun c => flat_map (fun p => pv_vulns p ++ pv_ignored p) (rp_pkgs (ck_report c))) (checks tr).
Definition printable (V : Voice) (v : OSV) : Prop := v_osv_err V v = None.
Definition unprinted (err : string) : ev := EOut KErr Stderr ("an error occurred when printing results as JSON: " +s+ err).
