From Verif Require Import GoStr GoStrFacts GoSort GoSortFacts GoMap Types Json JsonRound JsonSpec OsvJsonSpec Path Configer Lockfile LockfileSpec Report ReportSpec ReportDocSpec Main MainSpec MainExamples RunEnd
  StorySpec StoryFacts StoryProofs ListDocSpec ListDocProofs.

(** C76: everything a run writes and does, in order *)
Theorem C76_story : forall E O, SorterOk (e_sort E) -> IterOk (e_iter E) ->
  forall fs cache code s', run E O (start fs cache) = (Ok code, s') -> whole_story E O (s_trace s').
Proof. exact run_told. Qed.
(** the numbers in it are decimal *)
Theorem C76_numbers : forall n, decimal n (dec_of_nat n).
Proof. exact decimals. Qed.
(** a listing has a line for each package *)
Theorem C76_lines : forall l, lf_pkgs l <> [] -> Forall plain_pkg (lf_pkgs l) ->
  Forall2 listed_line (lf_pkgs l) (lines (result_string (fun _ s => s) (RLock l))).
Proof. exact listed_lines. Qed.
(** with --json it is a document that says what the lockfiles are *)
Theorem C76_document : forall E O fs cache code s', SorterOk (e_sort E) -> IterOk (e_iter E) -> EntriesOk E ->
  o_json O = true -> listing O -> known_as (o_parse_as O) -> run E O (start fs cache) = (Ok code, s') ->
  exists l e rs, inputs E O l e /\ listed_as E O l rs
    /\ (Forall (fun l => Forall utf8 (lock_texts l)) (given rs) ->
        exists text j, stdout (s_trace s') = [text] /\ json_text text j /\ listing_doc j (given rs)).
Proof. exact list_document. Qed.
(** not every message ends its line: a failed update does not *)
Lemma said_to_stderr tr t : (forall st t, In (EOut KErr st t) tr -> st = Stderr) -> mem t (messages KErr tr) = true -> In (EOut KErr Stderr t) tr.
Proof.
  intros A H. apply mem_iff in H. unfold messages in H. apply in_flat_map in H as (e & I & H). destruct e as [[] st x| | | | | | |]; try (destruct H; fail).
  destruct H as [<-|[]]. now rewrite <- (A _ _ I).
Qed.
Definition sy_env : Env := mkEnv mx_world (e_sem mx_env) isort (e_iter mx_env) (e_col mx_env) (e_text mx_env) (e_osv_json mx_env) mx_stat mx_impl (fun _ => None) (fun u => u)
  (e_dec_yaml mx_env) (e_enc_yaml mx_env) (fun _ => false) (e_api mx_env) "v".
Definition sy_update : Opts := mkOpts false "" "" false true false false false false false false true false 1000 [] ["d"].
Lemma sy_code : fst (run sy_env sy_update (start mx_files (fun _ => None))) = Ok 127%Z. Proof. vm_compute. reflexivity. Qed.
Lemma sy_said : mem "Error updating config: err" (messages KErr (s_trace (snd (run sy_env sy_update (start mx_files (fun _ => None)))))) = true.
Proof. vm_compute. reflexivity. Qed.
Theorem C76_line_ends_refuted : exists E O fs cache code s' t, SorterOk (e_sort E) /\ IterOk (e_iter E)
  /\ (forall e, e_text E e = "err") /\ run E O (start fs cache) = (Ok code, s')
  /\ In (EOut KErr Stderr t) (s_trace s') /\ has_suffix t newline = false.
Proof.
  pose proof sy_code as H1. pose proof sy_said as H2.
  assert (H3 : forall r s', run sy_env sy_update (start mx_files (fun _ => None)) = (r, s') -> forall st t, In (EOut KErr st t) (s_trace s') -> st = Stderr)
    by (intros r s'; apply errors_stderr; exact mx_iter).
  exists sy_env, sy_update, mx_files, (fun _ => None), 127%Z. destruct (run sy_env sy_update (start mx_files (fun _ => None))) as [r s'].
  exists s', "Error updating config: err". cbn [fst snd] in H1, H2. subst r.
  split; [exact mx_sort|]. split; [exact mx_iter|]. split; [reflexivity|]. split; [reflexivity|]. split; [|reflexivity].
  apply said_to_stderr; [eapply H3; reflexivity|exact H2].
Qed.
Theorem C76_one_reading : forall j a b, listing_doc j a -> listing_doc j b -> a = b.
Proof. exact listing_fun. Qed.
Print Assumptions C76_story.
Print Assumptions C76_numbers.
Print Assumptions C76_lines.
Print Assumptions C76_document.
Print Assumptions C76_one_reading.
Print Assumptions C76_line_ends_refuted.

Definition sy_opts (list json : bool) : Opts := mkOpts false "" "" false true false false false false list json true false 1000 [] ["d"; "e"].
(** a run over d and e; Cargo.lock cannot be read *)
Example C76_case :
  whole_story mx_env (sy_opts false false) (s_trace (snd (mx_run (sy_opts false false))))
  /\ join "" (stdout (s_trace (snd (mx_run (sy_opts false false))))) = join newline [
    "Loaded the following OSV databases:";
    "  mine (using batches of 1000)";
    "  Go (0 vulnerabilities, including withdrawn - last updated today)";
    "  npm (0 vulnerabilities, including withdrawn - last updated today)";
    ""; "";
    "d/go.mod: found 2 packages";
    "  Using config at d/.osv-detector.yml (1 ignore)";
    "  Using db mine (using batches of 1000)";
    "  Using db Go (0 vulnerabilities, including withdrawn - last updated today)";
    "";
    "  bad@1 is affected by the following vulnerabilities:";
    "    B: text";
    "";
    "  1 new vulnerability found in d/go.mod (1 was ignored)";
    "";
    "e/yarn.lock: found 1 package";
    "  Using db npm (0 vulnerabilities, including withdrawn - last updated today)";
    "";
    "  no known vulnerabilities found";
    "";
    "Updated d/.osv-detector.yml with 2 vulnerabilities"; ""]
  /\ join "" (stdout (s_trace (snd (mx_run (sy_opts true false))))) = join newline [
    ""; "d/go.mod: found 2 packages"; "  Go: bad@1"; "  Go: fine@2"; "e/yarn.lock: found 1 package"; "  npm: bad@3"]
  /\ stdout (s_trace (snd (mx_run (sy_opts true true)))) = [
    "{""results"":[{""filePath"":""d/go.mod"",""parsedAs"":""go.mod"",""packages"":[{""name"":""bad"",""version"":""1"",""ecosystem"":""Go"",""compareAs"":""Go""},{""name"":""fine"",""version"":""2"",""ecosystem"":""Go"",""compareAs"":""Go""}]},{""filePath"":""e/yarn.lock"",""parsedAs"":""yarn.lock"",""packages"":[{""name"":""bad"",""version"":""3"",""ecosystem"":""npm"",""compareAs"":""npm""}]}]}"].
Proof.
  split; [|split; [|split]]; [|vm_compute; reflexivity..].
  assert (H : fst (mx_run (sy_opts false false)) = Ok 127%Z) by (vm_compute; reflexivity).
  apply (C76_story mx_env (sy_opts false false) mx_sort mx_iter mx_files (fun _ => None) 127). rewrite <- H. unfold mx_run. apply surjective_pairing.
Qed.
Print Assumptions C76_case.
(** the line of a package with a commit and no ecosystem *)
Example C76_line_case : Forall2 listed_line [mkPkg "a" "" "c0" "" ""; mkPkg "b" "1" "" "npm" "npm"]
  (lines (result_string (fun _ s => s) (RLock (mkLF "p" "x" [mkPkg "a" "" "c0" "" ""; mkPkg "b" "1" "" "npm" "npm"]))))
  /\ result_string (fun _ s => s) (RLock (mkLF "p" "x" [mkPkg "a" "" "c0" "" ""; mkPkg "b" "1" "" "npm" "npm"])) = "  <unknown>: a (c0)" +s+ newline +s+ "  npm: b@1"
  /\ decimal 207 "207".
Proof.
  split; [|split].
  - apply (C76_lines (mkLF "p" "x" [mkPkg "a" "" "c0" "" ""; mkPkg "b" "1" "" "npm" "npm"])); [discriminate|]. repeat constructor.
  - reflexivity.
  - exact (C76_numbers 207).
Qed.
