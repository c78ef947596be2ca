(** C97: the IDs given with --ignore are a set. *)
From Verif Require Import GoStr GoStrFacts GoSort GoSortFacts Types Json Osv MemDB Path Api ZipDB DirDB DbConfig Configer GoMap Lockfile Report Main MainSpec MainExamples IgnSetSpec IgnSetProofs.

(** Two runs given the same IDs with --ignore, in any order and any number of
    times, take the same steps, print the same, write the same files and end in
    the same way. *)
Theorem C97_set : forall E O ig fs cache r s r' s', same_ids (o_ignores O) ig ->
  run E O (start fs cache) = (r, s) -> run E (with_ignores O ig) (start fs cache) = (r', s') ->
  r = r' /\ Forall2 same_step (s_trace s) (s_trace s') /\ s_files s = s_files s' /\ s_cache s = s_cache s'.
Proof. exact ids_run. Qed.
Print Assumptions C97_set.

Definition is_opts (ig : list string) : Opts := mkOpts false "" "" false false false false false false false false false true 1000 ig ["d/go.mod"].
Definition is_run (ig : list string) := run mx_env (is_opts ig) (start mx_files (fun _ => None)).
Definition is_rows (ig : list string) := map (fun k => map (fun r => (map o_id (pv_vulns r), map o_id (pv_ignored r))) (rp_pkgs (ck_report k))) (checks (s_trace (snd (is_run ig)))).
(** A is ignored by the config; the order shows in the steps, but not in the output *)
Example C97_case : same_ids ["B"; "C"] ["C"; "B"; "C"]
  /\ fst (is_run []) = Ok 1%Z /\ fst (is_run ["B"; "C"]) = Ok 0%Z /\ fst (is_run ["C"; "B"; "C"]) = Ok 0%Z
  /\ is_rows [] = [[(["B"], ["A"]); ([], [])]] /\ is_rows ["C"; "B"; "C"] = [[([], ["A"; "B"]); ([], [])]]
  /\ map ck_ignores (checks (s_trace (snd (is_run ["C"; "B"; "C"])))) = [["A"; "C"; "B"; "C"]]
  /\ stdout (s_trace (snd (is_run ["B"; "C"]))) = stdout (s_trace (snd (is_run ["C"; "B"; "C"])))
  /\ Forall2 same_step (s_trace (snd (is_run ["B"; "C"]))) (s_trace (snd (is_run ["C"; "B"; "C"]))).
Proof.
  assert (S : same_ids ["B"; "C"] ["C"; "B"; "C"]) by (intros id; cbn; tauto).
  split; [exact S|]. do 7 (split; [vm_compute; reflexivity|]).
  apply (C97_set mx_env (is_opts ["B"; "C"]) ["C"; "B"; "C"] mx_files (fun _ => None) _ _ _ _ S (surjective_pairing _) (surjective_pairing _)).
Qed.
