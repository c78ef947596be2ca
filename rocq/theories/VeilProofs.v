From Verif Require Import GoStr GoStrFacts GoSort Types Json Osv MemDB Path Api ZipDB ZipSpec ZipProofs DirDB DbConfig Configer GoMap Lockfile Ecosystems Report Main MainSpec VeilSpec.

Section Veil.
Variable E : Env.
Variable O : Opts.
Notation answer := (w_answer (e_world E)).
Hypothesis Hinj : forall u v, e_cache_path E u = e_cache_path E v -> u = v.
Hypothesis Honline : o_offline O = false.
Hypothesis Hsteady : forall u, steady answer u.

(** ** one archive *)
Lemma fetch_veiled u file : genuine answer u file ->
  f_result (fetch_zip u false file answer) = f_result (fetch_zip u false None answer)
  /\ map rq_url (f_reqs (fetch_zip u false file answer)) = map rq_url (f_reqs (fetch_zip u false None answer)).
Proof.
  intros G. destruct (Hsteady u) as (S1 & S2 & S3). unfold fetch_zip. cbv zeta. destruct file as [content|]; [|auto].
  destruct (fst (dec_cache content)) as [c|] eqn:C; [|auto]. destruct (S1 (c_etag c, c_date c)) as [->|(e & d & b & H)].
  - destruct (answer (mkReq u None)) as [| |st e d b] eqn:A; [auto|auto|]. destruct (Z.eqb_spec st 304) as [->|N]; [now destruct (S2 e d b)|].
    destruct (negb _); [auto|]. now destruct b.
  - destruct (G _ _ _ _ _ eq_refl C H) as (tag & A). rewrite H, A. cbn. auto.
Qed.
Lemma fetch_genuine u file : genuine answer u file ->
  forall w, f_write (fetch_zip u false file answer) = Some w -> genuine answer u (Some w).
Proof.
  intros G w W. destruct (Hsteady u) as (S1 & S2 & S3). unfold fetch_zip in W. cbv zeta in W.
  set (cache := match file with Some content => fst (dec_cache content) | None => None end) in W.
  assert (K : answer (mkReq u match cache with Some c => Some (c_etag c, c_date c) | None => None end) = answer (mkReq u None)
    \/ exists e d b, answer (mkReq u match cache with Some c => Some (c_etag c, c_date c) | None => None end) = ZResp 304 e d b).
  { destruct cache as [c|]; [apply S1|now left]. }
  destruct K as [K|(e & d & b & K)]; rewrite K in W; [|cbn in W; destruct cache; discriminate W].
  destruct (answer (mkReq u None)) as [| |st e d b] eqn:A; try discriminate W. destruct (Z.eqb_spec st 304) as [->|N]; [now destruct (S2 e d b)|].
  destruct (Z.eqb_spec st 200) as [->|N2]; [|discriminate W]. cbn [negb] in W. destruct b as [b|]; [|discriminate W]. cbn [f_write] in W.
  destruct (S3 e d b eq_refl) as [D V].
  assert (Q : (negb (seqb e "") || negb (seqb d ""))%bool = true).
  { destruct D as [D|D]; apply orb_true_iff; [left|right]; apply negb_true_iff; destruct (seqb_spec e ""); destruct (seqb_spec d ""); auto; contradiction. }
  rewrite Q in W. injection W as <-. intros content c e' d' b' HC DC _. injection HC as <-. rewrite cache_round in DC. unfold valid_cache in DC. cbn [fst c_url c_etag c_date c_body] in DC. injection DC as <-. cbn [c_date c_body bytes].
  rewrite V. now exists e.
Qed.

(** ** states that differ in caches and the conditions of requests *)
Record alike (s s' : St) : Prop := mkAlike {
  al_trace : map bare (s_trace s) = map bare (s_trace s');
  al_err : s_errored s = s_errored s';
  al_res : s_results s = s_results s';
  al_heap : s_heap s = s_heap s';
  al_dbs : s_dbs s = s_dbs s';
  al_files : s_files s = s_files s';
  al_gen : all_genuine E (s_cache s);
  al_gen' : all_genuine E (s_cache s') }.
Definition veiled {A} (m : M A) : Prop := forall s s', alike s s' -> fst (m s) = fst (m s') /\ alike (snd (m s)) (snd (m s')).
Lemma veiled_bind {A B} (m : M A) (f : A -> M B) : veiled m -> (forall a, veiled (f a)) -> veiled (bind m f).
Proof.
  intros H K s s' N. destruct (H s s' N) as [Q1 Q2]. unfold bind. destruct (m s) as [r1 t1], (m s') as [r2 t2]. cbn in Q1, Q2. subst r2.
  destruct r1 as [a|]; [now apply K|auto].
Qed.
Lemma bind_to {A B} (m : M A) (f : A -> M B) s a s1 : m s = (Ok a, s1) -> bind m f s = f a s1.
Proof. intros H. unfold bind. now rewrite H. Qed.
Lemma veiled_ret {A} (a : A) : veiled (ret a). Proof. intros s s' N. auto. Qed.
Lemma veiled_lift {A} (r : res A) : veiled (lift r). Proof. intros s s' N. auto. Qed.
Lemma veiled_each {A} (f : A -> M unit) l : (forall a, veiled (f a)) -> veiled (each f l).
Proof. intros H. induction l as [|a l IH]; [apply veiled_ret|]. cbn [each]. apply veiled_bind; auto. Qed.
Lemma veiled_emit e : veiled (emit e).
Proof. intros s s' []. split; [reflexivity|]. constructor; cbn; auto. now rewrite !map_app, al_trace0. Qed.
Lemma veiled_errored : veiled set_errored. Proof. intros s s' []. split; [reflexivity|]. now constructor. Qed.
Lemma veiled_result r : veiled (add_result r).
Proof. intros s s' []. split; [reflexivity|]. constructor; cbn [add_result snd s_trace s_errored s_results s_heap s_dbs s_files s_cache]; auto. now rewrite al_res0. Qed.
Lemma veiled_set_heap h : veiled (set_heap h). Proof. intros s s' []. split; [reflexivity|]. now constructor. Qed.
Lemma veiled_set_dbs h : veiled (set_dbs h). Proof. intros s s' []. split; [reflexivity|]. now constructor. Qed.
Lemma veiled_set_files h : veiled (set_files h). Proof. intros s s' []. split; [reflexivity|]. now constructor. Qed.
Lemma veiled_heap : veiled (get s_heap). Proof. intros s s' N. split; [cbn; f_equal; apply N|exact N]. Qed.
Lemma veiled_dbs : veiled (get s_dbs). Proof. intros s s' N. split; [cbn; f_equal; apply N|exact N]. Qed.
Lemma veiled_files : veiled (get s_files). Proof. intros s s' N. split; [cbn; f_equal; apply N|exact N]. Qed.
Lemma veiled_results : veiled (get s_results). Proof. intros s s' N. split; [cbn; f_equal; apply N|exact N]. Qed.
Lemma veiled_get_errored : veiled (get s_errored). Proof. intros s s' N. split; [cbn; f_equal; apply N|exact N]. Qed.
Ltac vv := repeat (cbv zeta; match goal with
  | |- veiled (bind _ _) => apply veiled_bind; [|intros ?]
  | |- veiled (ret _) => apply veiled_ret
  | |- veiled (lift _) => apply veiled_lift
  | |- veiled (each _ _) => apply veiled_each; intros ?
  | |- veiled (emit _) => apply veiled_emit
  | |- veiled (print_error _) => unfold print_error
  | |- veiled (print_text _ _) => unfold print_text
  | |- veiled (print_result _ _ _) => unfold print_result
  | |- veiled set_errored => apply veiled_errored
  | |- veiled (add_result _) => apply veiled_result
  | |- veiled (set_heap _) => apply veiled_set_heap
  | |- veiled (set_dbs _) => apply veiled_set_dbs
  | |- veiled (set_files _) => apply veiled_set_files
  | |- veiled (get s_heap) => apply veiled_heap
  | |- veiled (get s_dbs) => apply veiled_dbs
  | |- veiled (get s_files) => apply veiled_files
  | |- veiled (get s_results) => apply veiled_results
  | |- veiled (get s_errored) => apply veiled_get_errored
  | H : forall _, veiled _ |- _ => solve [apply H]
  | H : forall _ _, veiled _ |- _ => solve [apply H]
  | H : forall _ _ _, veiled _ |- _ => solve [apply H]
  | H : veiled _ |- _ => exact H
  | |- veiled (if ?b then _ else _) => destruct b
  | |- veiled (let '(_, _) := ?b in _) => destruct b
  | |- veiled (match ?b with _ => _ end) => destruct b
  end).

(** ** loading *)
Definition after (file w : option string) : option string := match w with Some x => Some x | None => file end.
Lemma load_veiled c names f f' : genuine answer (dc_url c) f -> genuine answer (dc_url c) f' ->
  let x := load_db (e_world E) f c (o_offline O) (o_batch O) names in
  let x' := load_db (e_world E) f' c (o_offline O) (o_batch O) names in
  fst (fst x) = fst (fst x') /\ map rq_url (snd x) = map rq_url (snd x')
  /\ (forall w, snd (fst x) = Some w -> genuine answer (dc_url c) (Some w)) /\ (forall w, snd (fst x') = Some w -> genuine answer (dc_url c) (Some w)).
Proof.
  intros G G'. cbv zeta. unfold load_db. rewrite Honline. destruct (seqb (dc_type c) "zip").
  2:{ destruct (seqb (dc_type c) "api"); [cbn; repeat split; discriminate|]. destruct (seqb (dc_type c) "dir"); cbn; repeat split; discriminate. }
  unfold zip_load. destruct (fetch_veiled _ _ G) as [R1 Q1]. destruct (fetch_veiled _ _ G') as [R2 Q2].
  pose proof (fetch_genuine _ _ G) as W1. pose proof (fetch_genuine _ _ G') as W2. cbv zeta.
  set (x := fetch_zip (dc_url c) false f answer) in *. set (x' := fetch_zip (dc_url c) false f' answer) in *. clearbody x x'.
  cbn [fst snd]. rewrite R1, R2, Q1, Q2. auto.
Qed.
Lemma each_requests rqs : forall s, each (fun q => emit (EZip q)) rqs s =
  (Ok tt, mkSt (s_trace s ++ map EZip rqs) (s_errored s) (s_results s) (s_heap s) (s_dbs s) (s_files s) (s_cache s)).
Proof.
  induction rqs as [|q rqs IH]; intros s; cbn [each map]; [rewrite app_nil_r; now destruct s|].
  unfold bind, emit. rewrite IH. cbn. now rewrite <- app_assoc.
Qed.
Lemma bare_requests l l' : map rq_url l = map rq_url l' -> map bare (map EZip l) = map bare (map EZip l').
Proof. intros H. rewrite !map_map. cbn. rewrite <- (map_map rq_url (fun u => EZip (mkReq u None))), H, map_map. reflexivity. Qed.
Lemma veiled_load_loop names : forall configs, veiled (load_loop E O configs names).
Proof.
  induction configs as [|c configs IH]; cbn [load_loop]; [vv|].
  apply veiled_bind; [vv|]. intros _. apply veiled_bind; [vv|]. intros _. intros s s' N.
  rewrite (bind_to (get s_cache) _ s (s_cache s) s eq_refl), (bind_to (get s_cache) _ s' (s_cache s') s' eq_refl).
  pose proof (load_veiled c names _ _ (al_gen _ _ N (dc_url c)) (al_gen' _ _ N (dc_url c))) as L. cbv zeta in L.
  destruct (load_db (e_world E) (s_cache s (e_cache_path E (dc_url c))) c _ _ names) as [[r w] rqs].
  destruct (load_db (e_world E) (s_cache s' (e_cache_path E (dc_url c))) c _ _ names) as [[r' w'] rqs']. cbn [fst snd] in L. destruct L as (<- & LQ & LW & LW').
  rewrite (bind_to _ _ _ _ _ (each_requests rqs s)), (bind_to _ _ _ _ _ (each_requests rqs' s')).
  rewrite !(bind_to (set_cache _) _ _ tt _ eq_refl). cbn [s_trace s_errored s_results s_heap s_dbs s_files s_cache].
  match goal with |- fst (?m ?a) = fst (?m ?b) /\ _ => assert (V : veiled m); [|assert (N2 : alike a b); [|exact (V a b N2)]] end.
  - unfold print_load_err. vv.
  - assert (GW : forall (cache : files) (w : option string), all_genuine E cache -> (forall x, w = Some x -> genuine answer (dc_url c) (Some x)) ->
      all_genuine E (match w with Some content => file_set cache (e_cache_path E (dc_url c)) (Some content) | None => cache end)).
    { intros cache w0 H K. destruct w0 as [x|]; [|exact H]. intros u. unfold file_set. destruct (seqb_spec (e_cache_path E u) (e_cache_path E (dc_url c))) as [P|P]; [|apply H].
      apply Hinj in P. subst u. now apply K. }
    destruct N. constructor; cbn [s_trace s_errored s_results s_heap s_dbs s_files s_cache]; auto.
    rewrite !map_app, al_trace0. f_equal. now apply bare_requests.
Qed.

(** ** everything else *)
Lemma veiled_load configs names : veiled (load_databases E O configs names).
Proof. unfold load_databases. pose proof (veiled_load_loop names). vv. Qed.
Lemma veiled_load_cfg path : veiled (load_cfg E path).
Proof. unfold load_cfg, report_db_errs. vv. Qed.
Lemma veiled_find_cfg dir : veiled (find_cfg E dir).
Proof. unfold find_cfg. pose proof veiled_load_cfg. vv. Qed.
Lemma veiled_alloc c : veiled (alloc c). Proof. unfold alloc. vv. Qed.
Lemma veiled_load_at c : veiled (load_at c). Proof. unfold load_at. vv. Qed.
Lemma veiled_read : forall paths cl cfg, veiled (read_all E O paths cl cfg).
Proof. pose proof veiled_find_cfg. pose proof veiled_alloc. pose proof veiled_load_at. induction paths as [|p ps IH]; intros cl cfg; cbn [read_all]; vv. Qed.
Lemma veiled_adjust files : veiled (adjust_all E O files).
Proof. unfold adjust_all, adjust_one. vv. Qed.
Lemma veiled_check k dbs lockf ign : veiled (check_lockfile E k dbs lockf ign).
Proof. assert (H : forall dbs, veiled (check_dbs E k dbs lockf)) by (induction dbs0 as [|i l IH]; cbn [check_dbs]; vv). unfold check_lockfile. vv. Qed.
Lemma veiled_check_files : forall files k exit seen, veiled (check_files E O files k exit seen).
Proof.
  assert (K : forall k dbs lockf ign, veiled (check_lockfile E k dbs lockf ign)) by exact veiled_check.
  induction files as [|f files IH]; intros k exit seen; cbn [check_files]; vv; try apply K; try apply IH.
Qed.
Lemma veiled_write seen : veiled (write_updated_configs E O seen).
Proof. assert (H : forall l, veiled (update_all E l)) by (induction l as [|x l IH]; cbn [update_all]; unfold update_one; vv). unfold write_updated_configs. vv. Qed.
Lemma veiled_find_all : veiled (find_all_lockfiles E O).
Proof.
  assert (F : forall path a, veiled (find_lockfiles E path a)) by (intros path a; unfold find_lockfiles; destruct (e_stat E path); vv).
  assert (H : forall l, veiled (find_all_loop E O l)) by (induction l as [|x l IH]; cbn [find_all_loop]; vv). unfold find_all_lockfiles. vv.
Qed.
Lemma veiled_run_files paths cl cfg : veiled (run_files E O paths cl cfg).
Proof.
  unfold run_files. apply veiled_bind; [apply veiled_read|]. intros fl. apply veiled_bind; [apply veiled_adjust|]. intros _. apply veiled_bind; [vv|]. intros h.
  apply veiled_bind; [apply veiled_load|]. intros x. apply veiled_bind; [vv|]. intros _. apply veiled_bind; [apply veiled_check_files|]. intros y.
  pose proof veiled_write. vv.
Qed.
Lemma veiled_run : veiled (run E O).
Proof.
  assert (B : veiled (run_body E O)).
  { unfold run_body. destruct (o_version O); [vv|]. destruct (o_list_eco O); [unfold print_known_ecosystems; generalize known_ecosystems; intros ke; vv|].
    destruct (negb _); [generalize (list_parsers (e_sort E) (e_iter E)); intros lp; vv|]. apply veiled_bind; [apply veiled_find_all|]. intros x.
    destruct (Nat.eqb _ _); [vv|]. unfold run_config. pose proof veiled_alloc. pose proof veiled_run_files. pose proof veiled_load_cfg. vv. }
  intros s s' N. destruct (B s s' N) as [Q1 Q2]. unfold run. destruct (run_body E O s) as [r s1], (run_body E O s') as [r' s1']. cbn [fst snd] in Q1, Q2. subst r'.
  assert (J : veiled (print_json_results E)) by (unfold print_json_results; vv). destruct (o_json O); [|auto].
  destruct (J _ _ Q2) as [_ J2]. destruct (print_json_results E s1), (print_json_results E s1'). auto.
Qed.
Lemma runs_veiled fs cache cache' r s r' s' : all_genuine E cache -> all_genuine E cache' ->
  run E O (start fs cache) = (r, s) -> run E O (start fs cache') = (r', s') ->
  r = r' /\ map bare (s_trace s) = map bare (s_trace s') /\ s_files s = s_files s' /\ all_genuine E (s_cache s) /\ all_genuine E (s_cache s').
Proof.
  intros G G' H H'. destruct (veiled_run (start fs cache) (start fs cache')) as [Q1 Q2]; [now constructor|]. rewrite H, H' in Q1, Q2. cbn [fst snd] in *. destruct Q2. auto.
Qed.
End Veil.

Lemma none_genuine E : all_genuine E (fun _ => None).
Proof. intros u content c e d b H. discriminate H. Qed.
Lemma veil_fresh E O O1 fs fs1 r1 s1 r s r' s' :
  (forall u v, e_cache_path E u = e_cache_path E v -> u = v) -> o_offline O1 = false -> o_offline O = false -> (forall u, steady (w_answer (e_world E)) u) ->
  run E O1 (start fs1 (fun _ => None)) = (r1, s1) ->
  run E O (start fs (s_cache s1)) = (r, s) -> run E O (start fs (fun _ => None)) = (r', s') ->
  r = r' /\ map bare (s_trace s) = map bare (s_trace s') /\ s_files s = s_files s'.
Proof.
  intros J N1 N S R1 R R'. destruct (runs_veiled E O1 J N1 S _ _ _ _ _ _ _ (none_genuine E) (none_genuine E) R1 R1) as (_ & _ & _ & G & _).
  destruct (runs_veiled E O J N S _ _ _ _ _ _ _ G (none_genuine E) R R') as (Q1 & Q2 & Q3 & _). auto.
Qed.
Lemma messages_bare k tr : MainSpec.messages k (map bare tr) = MainSpec.messages k tr.
Proof. induction tr as [|e tr IH]; [reflexivity|]. cbn [map]. unfold MainSpec.messages in *. cbn [flat_map]. rewrite IH. now destruct e. Qed.
