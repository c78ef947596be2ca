(** C73: the order in which Go iterates over maps does not show in a run. *)
From Coq Require Import Permutation.
From Verif Require Import GoStr GoStrFacts GoMap GoSort GoSortFacts Types Osv MemDB Path Api ZipDB DirDB DbConfig Configer Commit LockIO OrderSpec Parsers Lockfile Json Report Main MainSpec MainProofs SemNum ConfigExamples MainExamples RunOrderSpec RunOrderProofs RunOrderParse PropsListLocks PropsParsers.
Local Open Scope string_scope.

(** without --update-config-ignores the runs are the same in every respect *)
Theorem C73_same : forall E O it it' im im' s, SorterOk (e_sort E) -> IterOk it -> IterOk it' -> same_parsers im im' -> o_update O = false ->
  run (with_order E it im) O s = run (with_order E it' im') O s.
Proof. exact order_same. Qed.
Print Assumptions C73_same.
(** with it, they are the same but for the order in which configs are written *)
Theorem C73_update : forall E O it it' im im' fs cache, SorterOk (e_sort E) -> IterOk it -> IterOk it' -> same_parsers im im' ->
  fst (run (with_order E it im) O (start fs cache)) = fst (run (with_order E it' im') O (start fs cache))
  /\ same_end (snd (run (with_order E it im) O (start fs cache))) (snd (run (with_order E it' im') O (start fs cache))).
Proof. exact order_update. Qed.
Print Assumptions C73_update.
(** parsers are the same under two orders when C51 says so and no two different
    packages share name and version *)
Theorem C73_parsers : forall D it it' files depth text f path r r',
  fst (run_parser D it files depth f path) = Some r -> fst (run_parser D it' files depth f path) = Some r' -> same_packages r r' ->
  (forall ps, r = Ok (inr ps) -> told_apart ps) -> same_found (impl D it files depth text f path) (impl D it' files depth text f path).
Proof. exact impl_found. Qed.
Print Assumptions C73_parsers.

(** d has a go.mod with a vulnerable package, e a yarn.lock with another; both
    have configs *)
Definition ro_files (p : string) : fread := if seqb p "d/.osv-detector.yml" then FOk (yj_enc mx_conf) else if seqb p "e/.osv-detector.yml" then FOk (yj_enc mx_conf) else FNotExist.
Definition ro_opts (update json : bool) : Opts := mkOpts false "" "" false update false false false false false json false true 1000 [] ["d"; "e"].
Definition ro_impl (it : Iter) (f : ParserFn) (path : string) : PResult := rbind (mx_impl f path) (fun x => Ok (it _ (fst x), snd x)).
Definition ro_run (it : Iter) (update json : bool) := run (with_order mx_env it (ro_impl it)) (ro_opts update json) (start ro_files (fun _ => None)).
Definition written (tr : list ev) : list string := flat_map (fun e => match e with EWriteConfig p _ => [p] | _ => [] end) tr.
(** the order of those writes is that of the map *)
Theorem C73_writes_refuted : ~ forall E O it it' im im' s, SorterOk (e_sort E) -> IterOk it -> IterOk it' -> same_parsers im im' ->
  run (with_order E it im) O s = run (with_order E it' im') O s.
Proof.
  intros H. pose proof (f_equal (fun r => written (s_trace (snd r))) (H mx_env (ro_opts true false) lx_iter lx_rev (ro_impl lx_iter) (ro_impl lx_iter) (start ro_files (fun _ => None)) isort_ok lx_iter_ok lx_rev_ok (fun f path => sf_same _))) as X.
  vm_compute in X. discriminate X.
Qed.
Print Assumptions C73_writes_refuted.
(** packages of the same name and version, at different commits, are listed in
    the order in which the parser found them *)
Definition ro_ties (it : Iter) (f : ParserFn) (path : string) : PResult := Ok (it _ [mkPkg "x" "1" "c1" "npm" "npm"; mkPkg "x" "1" "c2" "npm" "npm"], None).
Definition ro_list : Opts := mkOpts false "" "" false false false false false false true false false false 1000 [] ["e"].
Theorem C73_ties_refuted : ~ forall E O it it' im im' s, SorterOk (e_sort E) -> IterOk it -> IterOk it' ->
  (forall f path, exists ps qs e, im f path = Ok (ps, e) /\ im' f path = Ok (qs, e) /\ Permutation ps qs) -> o_update O = false ->
  run (with_order E it im) O s = run (with_order E it' im') O s.
Proof.
  intros H. assert (X := H mx_env ro_list lx_iter lx_iter (ro_ties lx_iter) (ro_ties lx_rev) (start ro_files (fun _ => None)) isort_ok lx_iter_ok lx_iter_ok).
  assert (P : forall f path, exists ps qs e, ro_ties lx_iter f path = Ok (ps, e) /\ ro_ties lx_rev f path = Ok (qs, e) /\ Permutation ps qs).
  { intros f path. eexists _, _, None. split; [reflexivity|]. split; [reflexivity|]. apply (lx_rev_ok Pkg). }
  specialize (X P eq_refl). apply (f_equal (fun r => outs (s_trace (snd r)))) in X. vm_compute in X. discriminate X.
Qed.
Print Assumptions C73_ties_refuted.

(** two orders, under which the parser finds the packages, and the configs are
    written, in different orders; the runs report and rewrite the same *)
Example C73_case : same_parsers (ro_impl lx_iter) (ro_impl lx_rev)
  /\ ro_impl lx_iter ParseGoLock "x" <> ro_impl lx_rev ParseGoLock "x"
  /\ fst (ro_run lx_iter true true) = Ok 127%Z /\ map (fun k => List.length (rp_pkgs (ck_report k))) (checks (s_trace (snd (ro_run lx_iter true true)))) = [2; 1]
  /\ ro_run lx_iter false true = ro_run lx_rev false true
  /\ written (s_trace (snd (ro_run lx_iter true true))) = ["d/.osv-detector.yml"; "e/.osv-detector.yml"]
  /\ written (s_trace (snd (ro_run lx_rev true true))) = ["e/.osv-detector.yml"; "d/.osv-detector.yml"]
  /\ outs (s_trace (snd (ro_run lx_iter true true))) = outs (s_trace (snd (ro_run lx_rev true true))).
Proof.
  assert (P : same_parsers (ro_impl lx_iter) (ro_impl lx_rev)).
  { intros f path. destruct f; try apply sf_same. apply sf_found; [apply (lx_rev_ok Pkg)|]. intros p q [<-|[<-|[]]] [<-|[<-|[]]] N V; try reflexivity; discriminate N. }
  split; [exact P|]. split; [vm_compute; discriminate|]. split; [vm_compute; reflexivity|]. split; [vm_compute; reflexivity|].
  split; [exact (C73_same mx_env (ro_opts false true) lx_iter lx_rev _ _ _ isort_ok lx_iter_ok lx_rev_ok P eq_refl)|].
  split; [vm_compute; reflexivity|]. split; [vm_compute; reflexivity|].
  exact (se_outs _ _ (proj2 (C73_update mx_env (ro_opts true true) lx_iter lx_rev _ _ ro_files (fun _ => None) isort_ok lx_iter_ok lx_rev_ok P))).
Qed.
