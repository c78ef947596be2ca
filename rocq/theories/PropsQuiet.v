(** C81: telling a run to ignore more changes nothing but which advisories it
    counts as found. *)
From Verif Require Import GoStr GoSort GoSortFacts GoMap Types Osv MemDB Configer Lockfile Report Main MainSpec MainExamples ConfigExamples QuietSpec QuietRunProofs.
Local Open Scope string_scope.

(** two runs that differ in --ignore and --no-config-ignores do the same: they
    read, load, ask, check, write the same, and divide the same advisories *)
Theorem C81_same : forall E O no ig fs cache r s r' s', SorterOk (e_sort E) -> IterOk (e_iter E) ->
  run E O (start fs cache) = (r, s) -> run E (ignoring no ig O) (start fs cache) = (r', s') ->
  same_run O (ignoring no ig O) s s' /\ (r = Panic <-> r' = Panic).
Proof. exact run_same_run. Qed.
Print Assumptions C81_same.
(** ignoring more: the exit code is the same, or goes from 1 to what it would be
    without a finding *)
Theorem C81_exit : forall E O no ig fs cache c s c' s', SorterOk (e_sort E) -> IterOk (e_iter E) -> quieter O (ignoring no ig O) ->
  run E O (start fs cache) = (Ok c, s) -> run E (ignoring no ig O) (start fs cache) = (Ok c', s') ->
  c = c' \/ c = 1%Z /\ (messages KErr (s_trace s) = [] /\ c' = 0%Z \/ messages KErr (s_trace s) <> [] /\ c' = 127%Z).
Proof. exact run_codes. Qed.
Print Assumptions C81_exit.
(** ignoring more: per package, fewer advisories are found, more are ignored, and
    none appears or disappears *)
Theorem C81_rows : forall E O no ig fs cache r s r' s', SorterOk (e_sort E) -> IterOk (e_iter E) -> quieter O (ignoring no ig O) ->
  run E O (start fs cache) = (r, s) -> run E (ignoring no ig O) (start fs cache) = (r', s') ->
  Forall2 (fun ck ck' => incl (ck_ignores ck) (ck_ignores ck')
    /\ Forall2 (quieter_row (ck_ignores ck) (ck_ignores ck')) (rp_pkgs (ck_report ck)) (rp_pkgs (ck_report ck'))) (checks (s_trace s)) (checks (s_trace s')).
Proof. exact run_rows. Qed.
Print Assumptions C81_rows.

Definition qx_opts (update : bool) (ig args : list string) : Opts := mkOpts false "" "" false update false false false false false false false false 1000 ig args.
Definition qx_run (O : Opts) := run mx_env O (start mx_files (fun _ => None)).
Lemma qx_pair (O : Opts) c : fst (qx_run O) = Ok c -> run mx_env O (start mx_files (fun _ => None)) = (Ok c, snd (qx_run O)).
Proof. intros <-. apply surjective_pairing. Qed.
(** a run that could not open one path and ignores what it finds elsewhere
    exits with 127, where it would exit with 1 *)
Theorem C81_exit_refuted : ~ forall E O no ig fs cache c s c' s', SorterOk (e_sort E) -> IterOk (e_iter E) -> quieter O (ignoring no ig O) ->
  run E O (start fs cache) = (Ok c, s) -> run E (ignoring no ig O) (start fs cache) = (Ok c', s') -> (c' <= c)%Z.
Proof.
  intros H. assert (F1 : fst (qx_run (qx_opts false [] ["gone"; "d/go.mod"])) = Ok 1%Z) by (vm_compute; reflexivity).
  assert (F2 : fst (qx_run (ignoring false ["B"] (qx_opts false [] ["gone"; "d/go.mod"]))) = Ok 127%Z) by (vm_compute; reflexivity).
  assert (Q : quieter (qx_opts false [] ["gone"; "d/go.mod"]) (ignoring false ["B"] (qx_opts false [] ["gone"; "d/go.mod"]))) by (split; [exact (fun q => q)|apply incl_nil_l]).
  pose proof (H _ _ _ _ _ _ _ _ _ _ mx_sort mx_iter Q (qx_pair _ _ F1) (qx_pair _ _ F2)) as L. now apply L.
Qed.
Print Assumptions C81_exit_refuted.

Lemma qx_files O no ig p : s_files (snd (qx_run O)) p = s_files (snd (qx_run (ignoring no ig O))) p.
Proof.
  pose proof (C81_same mx_env O no ig mx_files (fun _ => None) _ _ _ _ mx_sort mx_iter (surjective_pairing _) (surjective_pairing _)) as [S _]. apply (sr_files _ _ _ _ S).
Qed.
(** B is found, or ignored; what --update-config-ignores writes is the same *)
Definition qx_rows (O : Opts) := map (fun k => map (fun r => (map o_id (pv_vulns r), map o_id (pv_ignored r))) (rp_pkgs (ck_report k))) (checks (s_trace (snd (qx_run O)))).
Example C81_case : quieter (qx_opts true [] ["d/go.mod"]) (ignoring false ["B"] (qx_opts true [] ["d/go.mod"]))
  /\ quieter (ignoring true [] (qx_opts true [] ["d/go.mod"])) (qx_opts true [] ["d/go.mod"])
  /\ fst (qx_run (ignoring true [] (qx_opts true [] ["d/go.mod"]))) = Ok 1%Z
  /\ fst (qx_run (qx_opts true [] ["d/go.mod"])) = Ok 1%Z /\ fst (qx_run (qx_opts true ["B"] ["d/go.mod"])) = Ok 0%Z
  /\ qx_rows (ignoring true [] (qx_opts true [] ["d/go.mod"])) = [[(["A"; "B"], []); ([], [])]]
  /\ qx_rows (qx_opts true [] ["d/go.mod"]) = [[(["B"], ["A"]); ([], [])]]
  /\ qx_rows (qx_opts true ["B"] ["d/go.mod"]) = [[([], ["A"; "B"]); ([], [])]]
  /\ s_files (snd (qx_run (qx_opts true ["B"] ["d/go.mod"]))) "d/.osv-detector.yml" = FOk (yj_enc (mkRC ["A"; "B"] (rc_dbs mx_conf)))
  /\ forall p, s_files (snd (qx_run (qx_opts true [] ["d/go.mod"]))) p = s_files (snd (qx_run (ignoring false ["B"] (qx_opts true [] ["d/go.mod"])))) p.
Proof.
  split; [split; [exact (fun q => q)|apply incl_nil_l]|]. split; [split; [discriminate|apply incl_nil_l]|].
  do 7 (split; [vm_compute; reflexivity|]). 
  intros p. apply (qx_files (qx_opts true [] ["d/go.mod"]) false ["B"] p).
Qed.
