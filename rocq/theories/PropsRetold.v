(** C91: how a run tells what it does has no influence on what it does. *)
From Verif Require Import GoStr GoStrFacts GoSort GoSortFacts Types Json Osv MemDB Path Api ZipDB DirDB DbConfig Configer GoMap Lockfile Report Main MainSpec MainExamples RetoldSpec RetoldProofs RetoldRunProofs.

(** With --json a run takes the same steps, ends with the same code (or crashes
    as well), says the same, but on stderr, and instead of writing each result
    writes one document with the same results at the end. *)
Theorem C91_json : forall E O fs cache r s, o_json O = false -> run E O (start fs cache) = (r, s) ->
  exists rs s', run E (with_json O true) (start fs cache) = (r, s')
    /\ messages KRes (s_trace s) = map (result_string (e_col E)) rs
    /\ s_trace s' = flat_map as_json (s_trace s) ++ [EOut KDoc Stdout (results_json (e_osv_json E) rs)]
    /\ s_files s' = s_files s /\ s_cache s' = s_cache s.
Proof. exact json_run. Qed.
(** Whatever the colours, the texts of errors, the way advisories are printed and
    the version: the same steps, as many errors, the same files and exit code. *)
Theorem C91_words : forall E col text osv_json version O json fs cache r s r' s', SorterOk (e_sort E) ->
  run E O (start fs cache) = (r, s) -> run (retold E col text osv_json version) (with_json O json) (start fs cache) = (r', s') ->
  r = r' /\ flat_map deed (s_trace s) = flat_map deed (s_trace s') /\ s_files s = s_files s' /\ s_cache s = s_cache s'.
Proof. exact text_run. Qed.
Print Assumptions C91_json.
Print Assumptions C91_words.

(** d has two lockfiles, of which one cannot be read *)
Definition rt_run (E : Env) (O : Opts) := run E O (start mx_files (fun _ => None)).
Lemma rt_pair E O : run E O (start mx_files (fun _ => None)) = (fst (rt_run E O), snd (rt_run E O)).
Proof. unfold rt_run. apply surjective_pairing. Qed.
Definition rt_env : Env := retold mx_env (fun c s => c +s+ s) (fun _ => "Error updating") (fun _ => JNull) "w".
Example C91_case : let O := mx_opts ["d"] in
  fst (rt_run mx_env O) = Ok 127%Z /\ List.length (messages KRes (s_trace (snd (rt_run mx_env O)))) = 1
  /\ List.length (messages KErr (s_trace (snd (rt_run mx_env O)))) = 1 /\ List.length (stdout (s_trace (snd (rt_run mx_env (with_json O true))))) = 1
  /\ (exists rs, s_trace (snd (rt_run mx_env (with_json O true))) = flat_map as_json (s_trace (snd (rt_run mx_env O))) ++ [EOut KDoc Stdout (results_json (e_osv_json mx_env) rs)])
  /\ messages KErr (s_trace (snd (rt_run rt_env O))) <> messages KErr (s_trace (snd (rt_run mx_env O)))
  /\ fst (rt_run rt_env (with_json O true)) = Ok 127%Z
  /\ flat_map deed (s_trace (snd (rt_run rt_env (with_json O true)))) = flat_map deed (s_trace (snd (rt_run mx_env O))).
Proof.
  cbv zeta. do 4 (split; [vm_compute; reflexivity|]). split; [|split; [vm_compute; discriminate|]].
  - destruct (C91_json mx_env (mx_opts ["d"]) mx_files (fun _ => None) _ _ eq_refl (rt_pair _ _)) as (rs & s' & R & _ & T & _). exists rs.
    rewrite <- T. unfold rt_run. rewrite R. reflexivity.
  - split; [vm_compute; reflexivity|]. symmetry.
    apply (C91_words mx_env (fun c s => c +s+ s) (fun _ => "Error updating") (fun _ => JNull) "w" (mx_opts ["d"]) true mx_files (fun _ => None) _ _ _ _ mx_sort (rt_pair _ _) (rt_pair _ _)).
Qed.
