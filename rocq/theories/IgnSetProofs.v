From Coq Require Import Lia.
From Verif Require Import GoStr GoStrFacts GoSort GoSortFacts Types Json Osv MemDB Path Api ZipDB DirDB DbConfig Configer GoMap Lockfile Csv Ecosystems Report Main MainSpec IgnSetSpec.

Lemma transpose_all_ids ign ign' : same_ids ign ign' -> forall pkgs i all, transpose_all pkgs ign i all = transpose_all pkgs ign' i all.
Proof.
  intros Q. assert (M : forall id, mem id ign = mem id ign').
  { intros id. specialize (Q id). destruct (mem id ign) eqn:A, (mem id ign') eqn:B; try reflexivity; exfalso.
    - apply mem_iff in A. apply Q, mem_iff in A. congruence.
    - apply mem_iff in B. apply Q, mem_iff in B. congruence. }
  assert (T : forall vs acc, fold_left (transpose_step ign) vs acc = fold_left (transpose_step ign') vs acc).
  { induction vs as [|v vs IH]; intros acc; [reflexivity|]. cbn [fold_left]. rewrite IH. f_equal. unfold transpose_step. now rewrite M. }
  induction pkgs as [|p ps IH]; intros i all; [reflexivity|]. cbn [transpose_all]. rewrite IH. f_equal. unfold transpose. destruct (column i all) as [vs|]; [|reflexivity]. cbn [rbind]. now rewrite T.
Qed.
Section IgnSet.
Variables (E : Env) (O : Opts) (ig : list string).
Hypothesis Hig : same_ids (o_ignores O) ig.
Notation O' := (with_ignores O ig).
Definition rel (s s' : St) : Prop := Forall2 same_step (s_trace s) (s_trace s') /\ s_errored s = s_errored s' /\ s_results s = s_results s'
  /\ s_heap s = s_heap s' /\ s_dbs s = s_dbs s' /\ s_files s = s_files s' /\ s_cache s = s_cache s'.
Definition jr {A} (RA : A -> A -> Prop) (m m' : M A) : Prop := forall s s', rel s s' ->
  match m s, m' s' with
  | (Ok a, s1), (Ok a', s1') => RA a a' /\ rel s1 s1'
  | (Panic, s1), (Panic, s1') => rel s1 s1'
  | _, _ => False
  end.
Ltac prim := intros s s' (T & A1 & A2 & A3 & A4 & A5 & A6); cbn; (split; [try reflexivity; congruence|]); repeat split; cbn; try congruence; auto.
Lemma Hstep e e' : same_step e e' -> jr eq (emit e) (emit e').
Proof. intros H. prim. apply Forall2_app; auto. Qed.
Lemma Hemit e : jr eq (emit e) (emit e). Proof. apply Hstep. constructor. Qed.
Lemma Hheap : jr eq (get s_heap) (get s_heap). Proof. prim. Qed.
Lemma Hdbs : jr eq (get s_dbs) (get s_dbs). Proof. prim. Qed.
Lemma Hfiles : jr eq (get s_files) (get s_files). Proof. prim. Qed.
Lemma Hcache : jr eq (get s_cache) (get s_cache). Proof. prim. Qed.
Lemma Herrored : jr eq (get s_errored) (get s_errored). Proof. prim. Qed.
Lemma Hset_heap h : jr eq (set_heap h) (set_heap h). Proof. prim. Qed.
Lemma Hset_dbs h : jr eq (set_dbs h) (set_dbs h). Proof. prim. Qed.
Lemma Hset_files h : jr eq (set_files h) (set_files h). Proof. prim. Qed.
Lemma Hset_cache h : jr eq (set_cache h) (set_cache h). Proof. prim. Qed.
Lemma Htext t : jr eq (print_text O t) (print_text O' t).
Proof. unfold print_text. change (o_json O') with (o_json O). apply Hemit. Qed.
Lemma Herr t : jr eq (print_error t) (print_error t).
Proof. prim. apply Forall2_app; [auto|]. repeat constructor. Qed.
Lemma Hres r : jr eq (print_result E O r) (print_result E O' r).
Proof. unfold print_result. change (o_json O') with (o_json O). destruct (o_json O); [prim|apply Hemit]. Qed.
Lemma jr_bind {A B} (RA : A -> A -> Prop) (RB : B -> B -> Prop) m m' f f' :
  jr RA m m' -> (forall a a', RA a a' -> jr RB (f a) (f' a')) -> jr RB (bind m f) (bind m' f').
Proof.
  intros H K s s' L. specialize (H s s' L). unfold bind. destruct (m s) as [[a|] s1], (m' s') as [[a'|] s1']; try contradiction; auto.
  destruct H as [H1 H2]. exact (K a a' H1 s1 s1' H2).
Qed.
Lemma jr_eq {A B} (RB : B -> B -> Prop) (m m' : M A) f f' : jr eq m m' -> (forall a, jr RB (f a) (f' a)) -> jr RB (bind m f) (bind m' f').
Proof. intros H K. apply (jr_bind eq); [exact H|]. now intros a a' <-. Qed.
Lemma jr_ret {A} (RA : A -> A -> Prop) a a' : RA a a' -> jr RA (ret a) (ret a').
Proof. intros H s s' L. cbn. auto. Qed.
Lemma jr_lift {A} (r : res A) : jr eq (lift r) (lift r).
Proof. intros s s' L. cbn. destruct r; auto. Qed.
Lemma jr_each {A} (f f' : A -> M unit) l : (forall a, jr eq (f a) (f' a)) -> jr eq (each f l) (each f' l).
Proof. intros H. induction l as [|a l IH]; cbn [each]; [now apply jr_ret|]. apply jr_eq; auto. Qed.
Ltac jj := repeat (cbv zeta; match goal with
  | H : jr _ ?m ?n |- jr _ ?m ?n => exact H
  | |- jr _ (bind _ _) (bind _ _) => apply jr_eq; [|intros ?]
  | |- jr _ (ret _) (ret _) => apply jr_ret; reflexivity
  | |- jr _ (lift _) (lift _) => apply jr_lift
  | |- jr _ (each _ _) (each _ _) => apply jr_each; intros ?
  | |- jr _ (emit _) (emit _) => apply Hemit
  | |- jr _ (print_error _) (print_error _) => apply Herr
  | |- jr _ (print_text _ _) (print_text _ _) => apply Htext
  | |- jr _ (print_result _ _ _) (print_result _ _ _) => apply Hres
  | |- jr _ (set_heap _) (set_heap _) => apply Hset_heap
  | |- jr _ (set_dbs _) (set_dbs _) => apply Hset_dbs
  | |- jr _ (set_files _) (set_files _) => apply Hset_files
  | |- jr _ (set_cache _) (set_cache _) => apply Hset_cache
  | |- jr _ (get s_heap) (get s_heap) => exact Hheap
  | |- jr _ (get s_dbs) (get s_dbs) => exact Hdbs
  | |- jr _ (get s_files) (get s_files) => exact Hfiles
  | |- jr _ (get s_cache) (get s_cache) => exact Hcache
  | |- jr _ (get s_errored) (get s_errored) => exact Herrored
  | H : forall _, jr _ _ _ |- _ => solve [apply H]
  | H : forall _ _, jr _ _ _ |- _ => solve [apply H]
  | H : forall _ _ _, jr _ _ _ |- _ => solve [apply H]
  | |- jr _ (if ?b then _ else _) (if ?b then _ else _) => destruct b
  | |- jr _ (if ?b then _ else _) (if ?c then _ else _) => change c with b; destruct b
  | |- jr _ (let '(_, _) := ?b in _) (let '(_, _) := ?b in _) => destruct b
  | |- jr _ (match ?b with _ => _ end) (match ?b with _ => _ end) => destruct b
  end).

Lemma jr_load_err e : jr eq (print_load_err E e) (print_load_err E e).
Proof. unfold print_load_err. jj. Qed.
Lemma jr_load_loop names : forall configs, jr eq (load_loop E O configs names) (load_loop E O' configs names).
Proof.
  pose proof jr_load_err. induction configs as [|c configs IH]; cbn [load_loop]; [jj|].
  change (o_offline O') with (o_offline O). change (o_batch O') with (o_batch O). jj.
Qed.
Lemma jr_load configs names : jr eq (load_databases E O configs names) (load_databases E O' configs names).
Proof. unfold load_databases. pose proof (jr_load_loop names). jj. Qed.
Lemma jr_load_cfg path : jr eq (load_cfg E path) (load_cfg E path).
Proof.
  unfold load_cfg, report_db_errs. jj.
Qed.
Lemma jr_find_cfg dir : jr eq (find_cfg E dir) (find_cfg E dir).
Proof. unfold find_cfg. pose proof jr_load_cfg. jj. Qed.
Lemma jr_alloc c : jr eq (alloc c) (alloc c). Proof. unfold alloc. jj. Qed.
Lemma jr_load_at c : jr eq (load_at c) (load_at c). Proof. unfold load_at. jj. Qed.
Lemma jr_read : forall paths cl cfg, jr eq (read_all E O paths cl cfg) (read_all E O' paths cl cfg).
Proof.
  pose proof jr_find_cfg. pose proof jr_alloc. pose proof jr_load_at. induction paths as [|p ps IH]; intros cl cfg; cbn [read_all]; [jj|].
  change (parse_lockfile E O' p) with (parse_lockfile E O p). jj.
Qed.
Lemma jr_adjust fl : jr eq (adjust_all E O fl) (adjust_all E O' fl).
Proof. unfold adjust_all, adjust_one. apply jr_each. intros f. destruct (l_err f); [jj|]. jj. Qed.
Lemma jr_check k dbs lockf ign ign' : same_ids ign ign' -> jr eq (check_lockfile E k dbs lockf ign) (check_lockfile E k dbs lockf ign').
Proof.
  intros Q.
  assert (H : forall dbs, jr eq (check_dbs E k dbs lockf) (check_dbs E k dbs lockf)).
  { induction dbs0 as [|i l IH]; cbn [check_dbs]; [jj|]. apply jr_eq; [exact Hdbs|]. intros ds. destruct (nth_error ds i) as [d|]; [|apply jr_lift].
    jj. }
  unfold check_lockfile. apply jr_eq; [apply H|]. intros vs. rewrite (transpose_all_ids _ _ Q). jj.
Qed.
Lemma jr_check_files : forall fl k exit seen, jr eq (check_files E O fl k exit seen) (check_files E O' fl k exit seen).
Proof.
  assert (K : forall k dbs lockf i i', same_ids i i' -> jr eq (check_lockfile E k dbs lockf i) (check_lockfile E k dbs lockf i')) by exact jr_check.
  induction fl as [|f fl IH]; intros k exit seen; cbn [check_files]; [jj|].
  change (o_no_ignores O') with (o_no_ignores O). change (o_ignores O') with ig. change (o_update O') with (o_update O). change (o_list_pkgs O') with (o_list_pkgs O).
  apply jr_eq; [jj|]. intros _. destruct (l_err f); [jj; apply IH|]. cbv zeta. apply jr_eq; [exact Hheap|]. intros h. set (c := if o_no_ignores O then _ else _).
  apply jr_eq; [apply Hset_heap|]. intros _. apply jr_eq; [apply Htext|]. intros _. destruct (o_list_pkgs O); [apply jr_eq; [apply Hres|intros _; apply IH]|].
  apply jr_eq; [jj|]. intros _. apply jr_eq; [exact Hdbs|]. intros ds. apply jr_eq; [jj|]. intros _. apply jr_eq; [apply Htext|]. intros _.
  match goal with |- jr _ (bind (check_lockfile _ _ _ _ ?i) _) (bind (check_lockfile _ _ _ _ ?j) _) => assert (I : same_ids i j) by (intros id; rewrite !in_app_iff; specialize (Hig id); tauto) end.
  apply jr_eq; [apply K; exact I|]. intros x. apply jr_eq; [apply Hstep; now constructor|]. intros _. apply jr_eq; [apply Hres|]. intros _. apply IH.
Qed.
Lemma jr_write seen : jr eq (write_updated_configs E O seen) (write_updated_configs E O' seen).
Proof.
  assert (U : forall x, jr eq (update_one E x) (update_one E x)) by (intros [path vulns]; unfold update_one; jj).
  assert (H : forall l, jr eq (update_all E l) (update_all E l)) by (induction l as [|x l IH]; cbn [update_all]; jj).
  unfold write_updated_configs. jj.
Qed.
Lemma jr_find_all : jr eq (find_all_lockfiles E O) (find_all_lockfiles E O').
Proof.
  assert (F : forall path a, jr eq (find_lockfiles E path a) (find_lockfiles E path a)).
  { intros path a. unfold find_lockfiles. destruct (e_stat E path); jj. }
  assert (H : forall l, jr eq (find_all_loop E O l) (find_all_loop E O' l)).
  { induction l as [|x l IH]; cbn [find_all_loop]; [jj|]. destruct (split_parse_as x). change (o_parse_as O') with (o_parse_as O). jj. }
  unfold find_all_lockfiles. change (o_parse_as O') with (o_parse_as O). change (o_args O') with (o_args O). jj.
Qed.
Lemma jr_run_files paths cl cfg : jr eq (run_files E O paths cl cfg) (run_files E O' paths cl cfg).
Proof.
  unfold run_files. apply jr_eq; [apply jr_read|]. intros fl. apply jr_eq; [apply jr_adjust|]. intros _. apply jr_eq; [exact Hheap|]. intros h.
  apply jr_eq; [apply jr_load|]. intros x. apply jr_eq; [apply Hset_dbs|]. intros _. apply jr_eq; [apply jr_check_files|]. intros y.
  change (o_update O') with (o_update O). pose proof jr_write. jj.
Qed.
Lemma jr_body : jr eq (run_body E O) (run_body E O').
Proof.
  unfold run_body. change (o_version O') with (o_version O). destruct (o_version O); [jj|]. change (o_list_eco O') with (o_list_eco O).
  destruct (o_list_eco O); [unfold print_known_ecosystems; generalize known_ecosystems; intros ke; jj|].
  change (o_parse_as O') with (o_parse_as O). 
  destruct (negb _); [generalize (list_parsers (e_sort E) (e_iter E)); intros lp; jj|]. apply jr_eq; [apply jr_find_all|]. intros x.
  change (o_args O') with (o_args O). destruct (Nat.eqb _ _); [jj|]. unfold run_config. change (o_list_pkgs O') with (o_list_pkgs O). change (o_no_config O') with (o_no_config O). change (o_config O') with (o_config O).
  pose proof jr_alloc. pose proof jr_run_files. pose proof jr_load_cfg. jj.
Qed.
End IgnSet.
Lemma ids_run E O ig fs cache r s r' s' : same_ids (o_ignores O) ig ->
  run E O (start fs cache) = (r, s) -> run E (with_ignores O ig) (start fs cache) = (r', s') ->
  r = r' /\ Forall2 same_step (s_trace s) (s_trace s') /\ s_files s = s_files s' /\ s_cache s = s_cache s'.
Proof.
  intros H R R'. assert (L : rel (start fs cache) (start fs cache)) by (repeat split; constructor).
  pose proof (jr_body E O ig H _ _ L) as B. unfold run in R, R'. change (o_json (with_ignores O ig)) with (o_json O) in R'.
  assert (P : forall t t', rel t t' -> rel (snd (print_json_results E t)) (snd (print_json_results E t'))).
  { intros t t' (T & A1 & A2 & A3 & A4 & A5 & A6). cbn. rewrite A2. repeat split; cbn; try congruence. apply Forall2_app; [auto|]. repeat constructor. }
  destruct (run_body E O (start fs cache)) as [q t], (run_body E (with_ignores O ig) (start fs cache)) as [q' t'].
  assert (Q : q = q' /\ rel t t') by (destruct q, q'; try contradiction; [destruct B as [<- B]; auto|auto]). destruct Q as [<- Q].
  assert (Z : forall u u', rel u u' -> Forall2 same_step (s_trace u) (s_trace u') /\ s_files u = s_files u' /\ s_cache u = s_cache u') by (intros u u' (T & A1 & A2 & A3 & A4 & A5 & A6); auto).
  destruct (o_json O).
  - pose proof (P t t' Q) as W. destruct (print_json_results E t) as [x u], (print_json_results E t') as [x' u']. injection R as <- <-. injection R' as <- <-. split; [reflexivity|]. apply Z, W.
  - injection R as <- <-. injection R' as <- <-. split; [reflexivity|]. apply Z, Q.
Qed.
