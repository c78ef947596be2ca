(** C95: what --no-config-ignores and --no-config-databases do. *)
From Verif Require Import GoStr GoStrFacts GoSort GoSortFacts Types Json Osv MemDB Path Api ZipDB DirDB DbConfig Configer GoMap Lockfile Report Main MainSpec MainExamples ClearSpec ClearProofs.

(** A run with these flags is the run without them in a world where every config
    ignores nothing, or has no valid databases: it takes the same steps, writes
    the same files and ends in the same way. Only the line that tells which
    config is used differs. *)
Theorem C95_same : forall E O ignores dbs fs cache r s r' s',
  (o_update O = true -> dbs = false) -> (dbs = true -> o_no_config O = false /\ o_list_pkgs O = false) ->
  run E (with_skips O ignores dbs) (start fs cache) = (r, s) ->
  run (cleared E ignores dbs) (with_skips O false false) (start fs cache) = (r', s') ->
  r = r' /\ Forall2 (alike E ignores) (s_trace s) (s_trace s') /\ s_files s = s_files s' /\ s_cache s = s_cache s'.
Proof. exact same_run. Qed.
(** With --no-config too, the databases of lockfiles that are checked before the
    last one are left out as well. *)
Theorem C95_no_config_refuted : exists E O fs cache r s r' s', o_update O = false /\ o_list_pkgs O = false
  /\ run E (with_skips O false true) (start fs cache) = (r, s)
  /\ run (cleared E false true) (with_skips O false false) (start fs cache) = (r', s')
  /\ map ck_dbs (checks (s_trace s)) <> map ck_dbs (checks (s_trace s')).
Proof.
  set (O := mkOpts false "" "" true false false false false false false false true false 1000 [] ["d/go.mod"; "e"]).
  exists mx_env, O, mx_files, (fun _ => None), (fst (run mx_env (with_skips O false true) (start mx_files (fun _ => None)))), (snd (run mx_env (with_skips O false true) (start mx_files (fun _ => None)))),
    (fst (run (cleared mx_env false true) (with_skips O false false) (start mx_files (fun _ => None)))), (snd (run (cleared mx_env false true) (with_skips O false false) (start mx_files (fun _ => None)))).
  split; [reflexivity|]. split; [reflexivity|]. split; [apply surjective_pairing|]. split; [apply surjective_pairing|]. vm_compute. discriminate.
Qed.
Print Assumptions C95_same.
Print Assumptions C95_no_config_refuted.

Definition cr_run (E : Env) (O : Opts) := run E O (start mx_files (fun _ => None)).
Definition cr_opts : Opts := mkOpts false "" "" false false false false false false false false true false 1000 [] ["d/go.mod"; "e"].
Definition cr_dbs (x : res Z * St) := map ck_dbs (checks (s_trace (snd x))).
(** d has a config with an ignore and a database *)
Example C95_case : let plain := cr_run mx_env cr_opts in
  let skipped := cr_run mx_env (with_skips cr_opts true true) in let other := cr_run (cleared mx_env true true) cr_opts in
  map ck_ignores (checks (s_trace (snd plain))) <> map ck_ignores (checks (s_trace (snd skipped)))
  /\ cr_dbs plain <> cr_dbs skipped /\ cr_dbs skipped = cr_dbs other
  /\ map ck_ignores (checks (s_trace (snd skipped))) = map ck_ignores (checks (s_trace (snd other)))
  /\ fst skipped = fst other /\ stdout (s_trace (snd skipped)) <> stdout (s_trace (snd other))
  /\ Forall2 (alike mx_env true) (s_trace (snd skipped)) (s_trace (snd other)).
Proof.
  cbv zeta. do 2 (split; [vm_compute; discriminate|]). do 3 (split; [vm_compute; reflexivity|]). split; [vm_compute; discriminate|].
  apply (C95_same mx_env cr_opts true true mx_files (fun _ => None) _ _ _ _ ltac:(discriminate) ltac:(now split) (surjective_pairing _) (surjective_pairing _)).
Qed.
