(** Property theorems about reports (C31, C32, C65). *)
From Verif Require Import GoStr GoStrFacts Types Osv OsvSpec MemDBSpec Describe Lockfile Report ReportSpec ReportProofs.

(** C31: with an answer from every database for every package, each package
    gets an entry; every advisory found is listed or related (same ID or alias)
    to a listed one, nothing else is listed, and no two listed are related *)
Theorem C31_accounted : forall pkgs ignores all, answered (List.length pkgs) all ->
  exists rows, transpose_all pkgs ignores 0 all = Ok rows /\ map pv_pkg rows = pkgs
    /\ forall i row, nth_error rows i = Some row ->
         (forall v, In v (found all i) -> exists w, In w (listed row) /\ (w = v \/ related w v))
         /\ incl (listed row) (found all i)
         /\ ForallOrdPairs (fun a b => ~ related a b) (listed row).
Proof. exact accounted. Qed.
Print Assumptions C31_accounted.
Definition adv (id : string) (aliases : list string) : OSV := mkOSV id aliases "" "" "" None "text" [].
Definition pk (n : string) : Pkg := mkPkg n "1" "" "npm" "npm".
Example C31_case :
  let all := [[[adv "A" ["C"]; adv "B" []]; []]; [[adv "D" ["C"]; adv "E" []]; [adv "B" []]]] in
  answered 2 all /\ transpose_all [pk "x"; pk "y"] ["B"] 0 all
  = Ok [mkPV (pk "x") [adv "A" ["C"]; adv "E" []] [adv "B" []]; mkPV (pk "y") [] [adv "B" []]].
Proof. split; [repeat constructor|vm_compute; reflexivity]. Qed.

(** C32: an advisory is ignored exactly by its own ID *)
Theorem C32_own_id : forall pkgs ignores all rows row v, answered (List.length pkgs) all ->
  transpose_all pkgs ignores 0 all = Ok rows -> In row rows -> In v (listed row) ->
  (In v (pv_ignored row) <-> In (o_id v) ignores) /\ (In v (pv_vulns row) <-> ~ In (o_id v) ignores).
Proof. exact own_id. Qed.
(** what is listed is fixed before the ignores are known *)
Theorem C32_listed : forall pkgs all, answered (List.length pkgs) all ->
  exists ks, Forall2 (fun vs k => dedup_of vs k) (map (found all) (seq 0 (List.length pkgs))) ks
    /\ forall ignores, exists rows, transpose_all pkgs ignores 0 all = Ok rows
         /\ map pv_pkg rows = pkgs /\ Forall2 (divided ignores) ks rows.
Proof. exact ignores_divide. Qed.
Print Assumptions C32_own_id.
Print Assumptions C32_listed.
Example C32_case :
  let all := [[[adv "A" ["B"]; adv "X" []]]; [[adv "B" []]]] in
  answered 1 all
  /\ transpose_all [pk "x"] ["A"] 0 all = Ok [mkPV (pk "x") [adv "X" []] [adv "A" ["B"]]]
  /\ transpose_all [pk "x"] ["X"] 0 all = Ok [mkPV (pk "x") [adv "A" ["B"]] [adv "X" []]].
Proof. split; [repeat constructor|split; vm_compute; reflexivity]. Qed.
(** so ignoring the ID of an advisory a database returned need not silence it:
    here the first database knows it as A, alias B *)
Theorem C32_alias_refuted : exists pkgs ignores all v row,
  answered (List.length pkgs) all /\ In v (found all 0) /\ In (o_id v) ignores
  /\ transpose_all pkgs ignores 0 all = Ok [row] /\ exists w, In w (pv_vulns row) /\ related w v.
Proof.
  exists [pk "x"], ["B"], [[[adv "A" ["B"]]]; [[adv "B" []]]], (adv "B" []), (mkPV (pk "x") [adv "A" ["B"]] []).
  split; [repeat constructor|]. split; [cbn; tauto|]. split; [cbn; tauto|]. split; [vm_compute; reflexivity|].
  exists (adv "A" ["B"]). split; [now left|]. unfold related. cbn. tauto.
Qed.
Print Assumptions C32_alias_refuted.

(** C65: "no vulnerabilities found" is the whole text iff there are none *)
Theorem C65_none : forall col, ColOk col -> forall r,
  (report_string col r = "  " +s+ col "green" ("no " +s+ word_for (List.length (ignored r)) +s+ " vulnerabilities found")
                        +s+ remark col (List.length (ignored r)) +s+ newline) <-> advisories r = [].
Proof. exact says_none. Qed.
(** otherwise the advisory lines are one per vulnerability, in order, and the
    last line announces their number and that of the ignored ones *)
Theorem C65_count : forall col, ColOk col -> forall r, readable r -> advisories r <> [] ->
  advisory_lines (report_string col r) = map (fun v => "    " +s+ col "cyan" (o_id v +s+ ":") +s+ " " +s+ describe v) (advisories r)
  /\ exists first, lines (report_string col r) = first ++ [""; "  "
    +s+ col "red" (dec_of_nat (List.length (advisories r)) +s+ " " +s+ word_for (List.length (ignored r)) +s+ " " +s+ plural (List.length (advisories r))
                   +s+ " found in " +s+ lf_path (rp_lock r))
    +s+ remark col (List.length (ignored r)); ""].
Proof. exact text_lines. Qed.
(** HasKnownVulnerabilities and HasIgnoredVulnerabilities: there are some *)
Theorem C65_flags : forall r, (has_known r = true <-> advisories r <> []) /\ (has_ignored r = true <-> ignored r <> []).
Proof. exact (fun r => conj (has_known_iff r) (has_ignored_iff r)). Qed.
Print Assumptions C65_none.
Print Assumptions C65_flags.
Print Assumptions C65_count.
Definition ansi (a t : string) : string := String "027" "[31m" +s+ t +s+ String "027" "[0m".
Definition plain (a t : string) : string := t.
Definition some_report : Report :=
  mkRep (mkLF "a/yarn.lock" "yarn.lock" [pk "x"; pk "y"])
        [mkPV (pk "x") [adv "A" []; adv "E" []] [adv "B" []]; mkPV (pk "y") [] [adv "B" []]].
Example C65_case : ColOk ansi /\ ColOk plain /\ readable some_report /\ advisories some_report <> [] /\ has_ignored some_report = true
  /\ lines (report_string plain some_report)
     = ["  x@1 is affected by the following vulnerabilities:"; "    A: text"; "    E: text"; "";
        "  2 new vulnerabilities found in a/yarn.lock (2 were ignored)"; ""].
Proof.
  split; [intros a t; right; exists "[31m", (String "027" "[0m"); repeat split|]. split; [intros a t; now left|].
  split; [split; repeat constructor|]. split; [discriminate|]. split; [reflexivity|]. vm_compute. reflexivity.
Qed.
(** details with line breaks make the lines disagree with the number *)
Theorem C65_multiline_refuted : exists r, advisories r <> []
  /\ List.length (advisory_lines (report_string plain r)) <> List.length (advisories r).
Proof.
  exists (mkRep (mkLF "a" "b" [pk "x"]) [mkPV (pk "x") [mkOSV "A" [] "" "" "" None (String "010" "    code") []] []]).
  split; [discriminate|]. vm_compute. discriminate.
Qed.
Print Assumptions C65_multiline_refuted.
