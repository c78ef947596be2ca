(** Property theorems about results that cannot be printed as JSON (C83). *)
From Verif Require Import GoStr GoStrFacts GoSort GoSortFacts GoMap Types Osv OsvSpec MemDB Path Api ZipDB ZipSpec DirDB DbConfig Configer Lockfile Csv Report Json Main MainSpec EndSpec SemNum OsvExamples ConfigExamples MainExamples PropsEnd FullRun FullRunSpec FullRunProofs PropsFullRun UnprintedSpec UnprintedProofs.

(** C83: whether its results can be printed changes nothing of a run but its
    last step, so not the exit code *)
Theorem C83_same : forall E V O, (forall path, v_write_err V path = None) ->
  forall s r s' o, run_full E V O s = (r, s', o) -> exists s'', run E O s = (r, s'')
    /\ (o_json O = false -> s_trace s'' = s_trace s ++ dids o)
    /\ (o_json O = true -> exists o1 e d, o = o1 ++ [Did e] /\ s_trace s'' = s_trace s ++ dids o1 ++ [EOut KDoc Stdout d]
         /\ (e = EOut KDoc Stdout d \/ exists v err, v_osv_err V v = Some err /\ e = unprinted err)).
Proof.
  intros E V O W s r s' o H. apply (run_same E V O W) in H as (s2 & H & K1 & K2). exists s2. split; [exact H|]. split.
  - intros J. now apply K1.
  - intros J. destruct (K2 J) as (o1 & T & M). exists o1. destruct (marshal_err V _) as [err|] eqn:Me.
    + do 2 eexists. split; [exact M|]. split; [exact T|]. right. apply (marshal_some V) in Me as (b & v & a & _ & _ & Ev). eauto.
    + destruct M as [M _]. do 2 eexists. split; [exact M|]. split; [exact T|]. now left.
Qed.
(** with --json the last thing a run does, even one that panics, is to print the
    document or to say why it cannot, and nothing else goes to stdout *)
Theorem C83_last : forall E V O, (forall path, v_write_err V path = None) -> IterOk (e_iter E) -> o_json O = true ->
  forall fs cache r s' o, run_full E V O (start fs cache) = (r, s', o) ->
  exists o1 e, o = o1 ++ [Did e] /\ stdout (dids o1) = [] /\ ((exists d, e = EOut KDoc Stdout d) \/ exists v err, v_osv_err V v = Some err /\ e = unprinted err).
Proof. exact json_any. Qed.
(** it prints the document exactly if every advisory listed can be printed; if
    not it says why of the first that cannot *)
Theorem C83_document : forall E V O, (forall path, v_write_err V path = None) -> IterOk (e_iter E) -> o_json O = true ->
  forall fs cache code s' o, o_list_pkgs O = false -> run_full E V O (start fs cache) = (Ok code, s', o) ->
  (Forall (printable V) (listed (dids o)) -> stdout (dids o) = [results_json (e_osv_json E) (map (fun c => RReport (ck_report c)) (checks (dids o)))])
  /\ forall before v after err, listed (dids o) = before ++ v :: after -> Forall (printable V) before -> v_osv_err V v = Some err ->
       stdout (dids o) = [] /\ exists o1, o = o1 ++ [Did (unprinted err)].
Proof. exact json_document. Qed.
(** with --list-packages it can always be printed *)
Theorem C83_listing : forall E V O, (forall path, v_write_err V path = None) -> o_json O = true ->
  forall fs cache r s' o, o_list_pkgs O = true -> run_full E V O (start fs cache) = (r, s', o) ->
  run E O (start fs cache) = (r, s') /\ s_trace s' = dids o.
Proof. exact json_list. Qed.
Print Assumptions C83_same.
Print Assumptions C83_last.
Print Assumptions C83_document.
Print Assumptions C83_listing.

(** the run of C80 with --json, where GHSA-1 cannot be printed *)
Definition un_voice : Voice := mkVoice (fun _ _ => []) (fun s => "no " +s+ s) (fun s => "lost " +s+ s) (fun _ => None)
  (fun v => if seqb (o_id v) "GHSA-1" then Some "timezone hour outside of range [0,23]" else None).
Definition un_opts (ignores : list string) : Opts := mkOpts false "" "" false false false false false false false true true false 1000 ignores ["e"].
Definition un_run ignores := run_full fr_env un_voice (un_opts ignores) (start (ed_files []) (fun _ => None)).
Example C83_case :
  fst (fst (un_run [])) = Ok 1%Z /\ stdout (dids (snd (un_run []))) = [] /\ map o_id (listed (dids (snd (un_run [])))) = ["GHSA-1"]
  /\ last (snd (un_run [])) (Note "") = Did (unprinted "timezone hour outside of range [0,23]").
Proof. do 3 (split; [vm_compute; reflexivity|]). vm_compute. reflexivity. Qed.
(** a run that only lists packages *)
Definition un_list : Opts := mkOpts false "" "" false false false false false false true true true false 1000 [] ["e"].
Example C83_listing_case : let o := dids (snd (run_full fr_env un_voice un_list (start (ed_files []) (fun _ => None)))) in
  stdout o = ["{""results"":[{""filePath"":""e/yarn.lock"",""parsedAs"":""yarn.lock"",""packages"":[{""name"":""lib"",""version"":""1.0"",""ecosystem"":""npm"",""compareAs"":""npm""},{""name"":""other"",""version"":""2"",""ecosystem"":""npm"",""compareAs"":""npm""}]}]}"].
Proof. vm_compute. reflexivity. Qed.
(** so C38_stdout and C66_exit are only about results that can be printed: a run
    with --json can exit 0 with an error message and without a document *)
Theorem C83_exit_refuted : exists E V O fs cache s' o err,
  SorterOk (e_sort E) /\ IterOk (e_iter E) /\ EntriesOk E /\ checking O /\ o_json O = true /\ (forall path, v_write_err V path = None)
  /\ run_full E V O (start fs cache) = (Ok 0%Z, s', o) /\ stdout (dids o) = [] /\ messages KErr (dids o) = [err].
Proof.
  exists fr_env, un_voice, (un_opts ["GHSA-1"]), (ed_files []), (fun _ => None), (snd (fst (un_run ["GHSA-1"]))), (snd (un_run ["GHSA-1"])),
    "an error occurred when printing results as JSON: timezone hour outside of range [0,23]".
  split; [exact isort_ok|]. split; [intros A l; apply Permutation_refl|]. split; [exact ed_entries|]. split; [now repeat split|]. split; [reflexivity|]. split; [reflexivity|].
  split; [unfold un_run; apply fr_parts; vm_compute; reflexivity|]. split; vm_compute; reflexivity.
Qed.
Print Assumptions C83_exit_refuted.
