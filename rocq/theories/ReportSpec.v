(** Specification of the report for a lockfile and of its text form. *)
From Verif Require Import GoStr Types OsvSpec MemDBSpec Describe Lockfile Report.

(** [found all i]: what the databases returned for package [i], in order *)
Definition found (all : list (list (list OSV))) (i : nat) : list OSV :=
  concat (map (fun results => nth i results []) all).
(** every database answered for every package *)
Definition answered (n : nat) (all : list (list (list OSV))) : Prop := Forall (fun r => List.length r = n) all.
Definition listed (row : PkgVulns) : list OSV := pv_vulns row ++ pv_ignored row.

(** the listed advisories divided by their own IDs *)
Definition divided (ignores : list string) (k : list OSV) (row : PkgVulns) : Prop :=
  selects (fun v => ~ In (o_id v) ignores) k (pv_vulns row) /\ selects (fun v => In (o_id v) ignores) k (pv_ignored row).

(** ** text *)
(** no name, version, ID or description has a line break and no name is indented *)
Definition one_line (s : string) : Prop := has_char "010" s = false.
Record readable (r : Report) : Prop := {
  rd_path : one_line (lf_path (rp_lock r));
  rd_pkg : Forall (fun p => one_line (p_name (pv_pkg p)) /\ one_line (p_version (pv_pkg p))
                            /\ has_prefix (p_name (pv_pkg p) +s+ "@") "  " = false) (rp_pkgs r);
  rd_vuln : Forall (fun p => Forall (fun v => one_line (o_id v) /\ one_line (describe v)) (pv_vulns p)) (rp_pkgs r) }.

(** colouring: nothing, or escape sequences around the text *)
Definition ColOk (col : string -> string -> string) : Prop := forall a t,
  col a t = t \/ exists c d, one_line c /\ one_line d /\ col a t = String "027" c +s+ t +s+ d.

Definition lines (s : string) : list string := split_char "010" s.
(** the lines a reader takes for advisories: those indented by four spaces *)
Definition advisory_lines (s : string) : list string := filter (fun l => has_prefix l "    ") (lines s).
Definition advisories (r : Report) : list OSV := concat (map pv_vulns (rp_pkgs r)).
Definition ignored (r : Report) : list OSV := concat (map pv_ignored (rp_pkgs r)).

(** "known", or "new" if some were ignored, and the remark about those *)
Definition word_for (n : nat) : string := match n with O => "known" | _ => "new" end.
Definition remark (col : string -> string -> string) (n : nat) : string :=
  match n with
  | O => ""
  | 1 => col "yellow" " (1 was ignored)"
  | _ => col "yellow" (" (" +s+ dec_of_nat n +s+ " were ignored)")
  end.
Definition plural (n : nat) : string := match n with 1 => "vulnerability" | _ => "vulnerabilities" end.
