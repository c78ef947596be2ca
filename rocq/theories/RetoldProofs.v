From Coq Require Import Lia.
From Verif Require Import GoStr GoStrFacts GoSort GoSortFacts Types Json Osv MemDB Path Api ZipDB DirDB DbConfig Configer GoMap Lockfile Csv Ecosystems Report Main MainSpec RetoldSpec.

(** ** two runs in lockstep, for any relation of states that outputs respect *)
Section Retold.
Variable E : Env.
Variable col : string -> string -> string.
Variable text : any_err -> string.
Variable osvj : OSV -> json.
Variable ver : string.
Variable O : Opts.
Variable json' : bool.
Notation E' := (retold E col text osvj ver).
Notation O' := (with_json O json').
Variable rel : St -> St -> Prop.
Variable okt : string -> string -> Prop.
Hypothesis Hokt : forall t t', (col = e_col E /\ text = e_text E /\ ver = e_version_line E -> t = t') -> okt t t'.
Definition jr {A} (RA : A -> A -> Prop) (m m' : M A) : Prop := forall s s', rel s s' ->
  match m s, m' s' with
  | (Ok a, s1), (Ok a', s1') => RA a a' /\ rel s1 s1'
  | (Panic, s1), (Panic, s1') => rel s1 s1'
  | _, _ => False
  end.
Hypothesis Herr : forall t t', okt t t' -> jr eq (print_error t) (print_error t').
Hypothesis Htext : forall t t', okt t t' -> jr eq (print_text O t) (print_text O' t').
Hypothesis Hres : forall r, jr eq (print_result E O r) (print_result E' O' r).
Hypothesis Hemit : forall e, (forall k st t, e <> EOut k st t) -> jr eq (emit e) (emit e).
Hypothesis Hheap : jr eq (get s_heap) (get s_heap).
Hypothesis Hdbs : jr eq (get s_dbs) (get s_dbs).
Hypothesis Hfiles : jr eq (get s_files) (get s_files).
Hypothesis Hcache : jr eq (get s_cache) (get s_cache).
Hypothesis Herrored : jr eq (get s_errored) (get s_errored).
Hypothesis Hset_heap : forall h, jr eq (set_heap h) (set_heap h).
Hypothesis Hset_dbs : forall h, jr eq (set_dbs h) (set_dbs h).
Hypothesis Hset_files : forall h, jr eq (set_files h) (set_files h).
Hypothesis Hset_cache : forall h, jr eq (set_cache h) (set_cache h).
Definition same_line (l l' : string) : Prop := okt l l' /\ has_prefix l "Error updating" = has_prefix l' "Error updating".
Hypothesis Hlines : forall l l', Forall2 same_line l l' ->
  jr eq (each (fun line => if has_prefix line "Error updating" then print_error line else print_text O line) (e_sort E _ str_ltb l))
        (each (fun line => if has_prefix line "Error updating" then print_error line else print_text O' line) (e_sort E _ str_ltb l')).

Lemma jr_bind {A B} (RA : A -> A -> Prop) (RB : B -> B -> Prop) m m' f f' :
  jr RA m m' -> (forall a a', RA a a' -> jr RB (f a) (f' a')) -> jr RB (bind m f) (bind m' f').
Proof.
  intros H K s s' L. specialize (H s s' L). unfold bind. destruct (m s) as [[a|] s1], (m' s') as [[a'|] s1']; try contradiction; auto.
  destruct H as [H1 H2]. exact (K a a' H1 s1 s1' H2).
Qed.
Lemma jr_eq {A B} (RB : B -> B -> Prop) (m m' : M A) f f' : jr eq m m' -> (forall a, jr RB (f a) (f' a)) -> jr RB (bind m f) (bind m' f').
Proof. intros H K. apply (jr_bind eq); [exact H|]. now intros a a' <-. Qed.
Lemma jr_ret {A} (RA : A -> A -> Prop) a a' : RA a a' -> jr RA (ret a) (ret a').
Proof. intros H s s' L. cbn. auto. Qed.
Lemma jr_lift {A} (r : res A) : jr eq (lift r) (lift r).
Proof. intros s s' L. cbn. destruct r; auto. Qed.
Lemma jr_each {A} (f f' : A -> M unit) l : (forall a, jr eq (f a) (f' a)) -> jr eq (each f l) (each f' l).
Proof. intros H. induction l as [|a l IH]; cbn [each]; [now apply jr_ret|]. apply jr_eq; auto. Qed.
Ltac okt := apply Hokt; intros (-> & -> & ->); reflexivity.
Ltac jj := repeat (cbv zeta; match goal with
  | H : jr _ ?m ?n |- jr _ ?m ?n => exact H
  | |- jr _ (bind _ _) (bind _ _) => apply jr_eq; [|intros ?]
  | |- jr _ (ret _) (ret _) => apply jr_ret; reflexivity
  | |- jr _ (lift _) (lift _) => apply jr_lift
  | |- jr _ (each _ _) (each _ _) => apply jr_each; intros ?
  | |- jr _ (emit _) (emit _) => apply Hemit; discriminate
  | |- jr _ (print_error _) (print_error _) => apply Herr; okt
  | |- jr _ (print_text _ _) (print_text _ _) => apply Htext; okt
  | |- jr _ (print_result _ _ _) (print_result _ _ _) => apply Hres
  | |- jr _ (set_heap _) (set_heap _) => apply Hset_heap
  | |- jr _ (set_dbs _) (set_dbs _) => apply Hset_dbs
  | |- jr _ (set_files _) (set_files _) => apply Hset_files
  | |- jr _ (set_cache _) (set_cache _) => apply Hset_cache
  | |- jr _ (get s_heap) (get s_heap) => exact Hheap
  | |- jr _ (get s_dbs) (get s_dbs) => exact Hdbs
  | |- jr _ (get s_files) (get s_files) => exact Hfiles
  | |- jr _ (get s_cache) (get s_cache) => exact Hcache
  | |- jr _ (get s_errored) (get s_errored) => exact Herrored
  | H : forall _, jr _ _ _ |- _ => solve [apply H]
  | H : forall _ _, jr _ _ _ |- _ => solve [apply H]
  | H : forall _ _ _, jr _ _ _ |- _ => solve [apply H]
  | |- jr _ (if ?b then _ else _) (if ?b then _ else _) => destruct b
  | |- jr _ (if ?b then _ else _) (if ?c then _ else _) => change c with b; destruct b
  | |- jr _ (let '(_, _) := ?b in _) (let '(_, _) := ?b in _) => destruct b
  | |- jr _ (match ?b with _ => _ end) (match ?b with _ => _ end) => destruct b
  end).

Lemma jr_load_err e : jr eq (print_load_err E e) (print_load_err E' e).
Proof. unfold print_load_err. jj. Qed.
Lemma jr_load_loop names : forall configs, jr eq (load_loop E O configs names) (load_loop E' O' configs names).
Proof.
  pose proof jr_load_err. induction configs as [|c configs IH]; cbn [load_loop]; [jj|].
  change (e_cache_path E') with (e_cache_path E). change (e_world E') with (e_world E). change (o_offline O') with (o_offline O). change (o_batch O') with (o_batch O). jj.
Qed.
Lemma jr_load configs names : jr eq (load_databases E O configs names) (load_databases E' O' configs names).
Proof. unfold load_databases. pose proof (jr_load_loop names). jj. Qed.
Lemma jr_load_cfg path : jr eq (load_cfg E path) (load_cfg E' path).
Proof.
  unfold load_cfg, report_db_errs. change (e_dec_yaml E') with (e_dec_yaml E). change (e_world E') with (e_world E). jj.
Qed.
Lemma jr_find_cfg dir : jr eq (find_cfg E dir) (find_cfg E' dir).
Proof. unfold find_cfg. pose proof jr_load_cfg. jj. Qed.
Lemma jr_alloc c : jr eq (alloc c) (alloc c). Proof. unfold alloc. jj. Qed.
Lemma jr_load_at c : jr eq (load_at c) (load_at c). Proof. unfold load_at. jj. Qed.
Lemma jr_read : forall paths cl cfg, jr eq (read_all E O paths cl cfg) (read_all E' O' paths cl cfg).
Proof.
  pose proof jr_find_cfg. pose proof jr_alloc. pose proof jr_load_at. induction paths as [|p ps IH]; intros cl cfg; cbn [read_all]; [jj|].
  change (parse_lockfile E' O' p) with (parse_lockfile E O p). jj.
Qed.
Lemma jr_adjust fl : jr eq (adjust_all E O fl) (adjust_all E' O' fl).
Proof. unfold adjust_all, adjust_one. apply jr_each. intros f. destruct (l_err f); [jj|]. jj. Qed.
Lemma jr_check k dbs lockf ign : jr eq (check_lockfile E k dbs lockf ign) (check_lockfile E' k dbs lockf ign).
Proof.
  assert (H : forall dbs, jr eq (check_dbs E k dbs lockf) (check_dbs E' k dbs lockf)).
  { induction dbs0 as [|i l IH]; cbn [check_dbs]; [jj|]. apply jr_eq; [exact Hdbs|]. intros ds. destruct (nth_error ds i) as [d|]; [|apply jr_lift].
    change (check_db E' k d (lf_pkgs lockf)) with (check_db E k d (lf_pkgs lockf)). jj. }
  unfold check_lockfile. jj.
Qed.
Lemma jr_check_files : forall fl k exit seen, jr eq (check_files E O fl k exit seen) (check_files E' O' fl k exit seen).
Proof.
  assert (K : forall k dbs lockf ign, jr eq (check_lockfile E k dbs lockf ign) (check_lockfile E' k dbs lockf ign)) by exact jr_check.
  induction fl as [|f fl IH]; intros k exit seen; cbn [check_files]; [jj|].
  change (o_no_ignores O') with (o_no_ignores O). change (o_ignores O') with (o_ignores O). change (o_update O') with (o_update O). jj; try apply IH; try apply K.
Qed.
Lemma jr_update_one x : jr same_line (update_one E x) (update_one E' x).
Proof.
  unfold update_one. destruct x as [path vulns]. apply jr_eq; [exact Hfiles|]. intros f. apply jr_eq; [apply Hemit; discriminate|]. intros _.
  change (e_dec_yaml E') with (e_dec_yaml E). change (e_enc_yaml E') with (e_enc_yaml E). change (e_openable E') with (e_openable E). change (e_sort E') with (e_sort E). change (e_iter E') with (e_iter E).
  cbv zeta. destruct (update_with_ignores _ _ _ _ _ _).
  - apply jr_ret. split; [okt|reflexivity].
  - apply jr_eq; [apply Hemit; discriminate|]. intros _. apply jr_eq; [apply Hset_files|]. intros _. apply jr_ret. split; [okt|reflexivity].
Qed.
Lemma jr_write seen : jr eq (write_updated_configs E O seen) (write_updated_configs E' O' seen).
Proof.
  assert (H : forall l, jr (Forall2 same_line) (update_all E l) (update_all E' l)).
  { induction l as [|x l IH]; cbn [update_all]; [now apply jr_ret|]. eapply jr_bind; [apply jr_update_one|]. intros a a' Q. eapply jr_bind; [exact IH|]. intros r r' R. apply jr_ret. now constructor. }
  unfold write_updated_configs. apply jr_eq; [jj|]. intros _. eapply jr_bind; [apply H|]. exact Hlines.
Qed.
Lemma jr_find_all : jr eq (find_all_lockfiles E O) (find_all_lockfiles E' O').
Proof.
  assert (F : forall path a, jr eq (find_lockfiles E path a) (find_lockfiles E' path a)).
  { intros path a. unfold find_lockfiles. change (e_stat E') with (e_stat E). change (e_sort E') with (e_sort E). destruct (e_stat E path); jj. }
  assert (H : forall l, jr eq (find_all_loop E O l) (find_all_loop E' O' l)).
  { induction l as [|x l IH]; cbn [find_all_loop]; [jj|]. destruct (split_parse_as x). change (o_parse_as O') with (o_parse_as O). jj. }
  unfold find_all_lockfiles. change (o_parse_as O') with (o_parse_as O). change (o_args O') with (o_args O). jj.
Qed.
Lemma jr_run_files paths cl cfg : jr eq (run_files E O paths cl cfg) (run_files E' O' paths cl cfg).
Proof.
  unfold run_files. apply jr_eq; [apply jr_read|]. intros fl. apply jr_eq; [apply jr_adjust|]. intros _. apply jr_eq; [exact Hheap|]. intros h.
  apply jr_eq; [apply jr_load|]. intros x. apply jr_eq; [apply Hset_dbs|]. intros _. apply jr_eq; [apply jr_check_files|]. intros y.
  change (o_update O') with (o_update O). pose proof jr_write. jj.
Qed.
Lemma jr_body : jr eq (run_body E O) (run_body E' O').
Proof.
  unfold run_body. change (o_version O') with (o_version O). destruct (o_version O); [jj|]. change (o_list_eco O') with (o_list_eco O).
  destruct (o_list_eco O); [unfold print_known_ecosystems; generalize known_ecosystems; intros ke; jj|].
  change (o_parse_as O') with (o_parse_as O). change (list_parsers (e_sort E') (e_iter E')) with (list_parsers (e_sort E) (e_iter E)).
  destruct (negb _); [generalize (list_parsers (e_sort E) (e_iter E)); intros lp; jj|]. apply jr_eq; [apply jr_find_all|]. intros x.
  change (o_args O') with (o_args O). destruct (Nat.eqb _ _); [jj|]. unfold run_config. change (o_list_pkgs O') with (o_list_pkgs O). change (o_no_config O') with (o_no_config O). change (o_config O') with (o_config O).
  pose proof jr_alloc. pose proof jr_run_files. pose proof jr_load_cfg. jj.
Qed.
End Retold.
