From Coq Require Import Lia.
From Verif Require Import GoStr GoSort Types Osv MemDB Path Api ZipDB DirDB DbConfig Configer GoMap Lockfile Csv Ecosystems Report Json Main.
From Verif Require Import OsvSpec MemDBSpec ReportSpec MainSpec MemDBProofs ReportProofs LockfileProofs MainProofs EndProofs QuietSpec.

Lemma strip_like (b b' : bool) (c c' : Config) :
  cf_path c = cf_path c' /\ cf_dbs c = cf_dbs c' /\ (b = b' -> cf_ignore c = cf_ignore c') ->
  let x := if b then mkCfg (cf_path c) [] (cf_dbs c) else c in
  let x' := if b' then mkCfg (cf_path c') [] (cf_dbs c') else c' in
  cf_path x = cf_path x' /\ cf_dbs x = cf_dbs x' /\ (b = b' -> cf_ignore x = cf_ignore x').
Proof. intros (H1 & H2 & H3). destruct b, b'; cbn; repeat split; auto; discriminate. Qed.

Section Quiet.
Variable E : Env.
Variable O : Opts.
Variable no : bool.
Variable ig : list string.
Let O' := ignoring no ig O.

Definition cfg_like (c c' : Config) : Prop :=
  cf_path c = cf_path c' /\ cf_dbs c = cf_dbs c' /\ (o_no_ignores O = no -> cf_ignore c = cf_ignore c').
Definition st_like (s s' : St) : Prop :=
  Forall2 (like_ev O O') (s_trace s) (s_trace s') /\ s_errored s = s_errored s' /\ Forall2 cfg_like (s_heap s) (s_heap s')
  /\ s_dbs s = s_dbs s' /\ s_files s = s_files s' /\ s_cache s = s_cache s'.
Definition par {A} (RA : A -> A -> Prop) (m m' : M A) : Prop := forall s s', st_like s s' ->
  match m s, m' s' with
  | (Ok a, s1), (Ok a', s1') => RA a a' /\ st_like s1 s1'
  | (Panic, s1), (Panic, s1') => st_like s1 s1'
  | _, _ => False
  end.

Lemma par_bind {A B} (RA : A -> A -> Prop) (RB : B -> B -> Prop) m m' f f' :
  par RA m m' -> (forall a a', RA a a' -> par RB (f a) (f' a')) -> par RB (bind m f) (bind m' f').
Proof.
  intros H K s s' L. specialize (H s s' L). unfold bind. destruct (m s) as [[a|] s1], (m' s') as [[a'|] s1']; try contradiction; auto.
  destruct H as [H1 H2]. exact (K a a' H1 s1 s1' H2).
Qed.
Lemma par_ret {A} (RA : A -> A -> Prop) a a' : RA a a' -> par RA (ret a) (ret a').
Proof. intros H s s' L. cbn. auto. Qed.
Lemma par_lift {A} (r : res A) : par eq (lift r) (lift r).
Proof. intros s s' L. cbn. destruct r; auto. Qed.
Lemma par_emit e e' : like_ev O O' e e' -> par eq (emit e) (emit e').
Proof.
  intros H s s' (L1 & L2). cbn. split; [reflexivity|]. split; [|exact L2]. cbn. apply Forall2_app; auto.
Qed.
Lemma par_emit1 e : checks [e] = [] -> par eq (emit e) (emit e).
Proof. intros H. apply par_emit. now constructor. Qed.
Lemma par_error t : par eq (print_error t) (print_error t).
Proof.
  unfold print_error. apply (par_bind eq).
  - intros s s' (L1 & L2 & L3). cbn. split; [reflexivity|]. split; [exact L1|]. split; [reflexivity|exact L3].
  - intros. now apply par_emit1.
Qed.
Lemma par_text t : par eq (print_text O t) (print_text O' t).
Proof. unfold print_text. now apply par_emit1. Qed.
Lemma par_result r r' : (exists l, r = RLock l /\ r' = RLock l) \/ (exists p p', r = RReport p /\ r' = RReport p') ->
  par eq (print_result E O r) (print_result E O' r').
Proof.
  intros H. unfold print_result. cbn. destruct (o_json O) eqn:J.
  - intros s s' L. cbn. split; [reflexivity|]. exact L.
  - apply par_emit. now apply le_result.
Qed.
Lemma par_heap : par (Forall2 cfg_like) (get s_heap) (get s_heap).
Proof. intros s s' L. cbn. split; [apply L|exact L]. Qed.
Lemma par_dbs : par eq (get s_dbs) (get s_dbs).
Proof. intros s s' L. cbn. split; [apply L|exact L]. Qed.
Lemma par_errored : par eq (get s_errored) (get s_errored).
Proof. intros s s' L. cbn. split; [apply L|exact L]. Qed.
Lemma par_set_dbs d : par eq (set_dbs d) (set_dbs d).
Proof. intros s s' (L1 & L2 & L3 & L4 & L5). cbn. split; [reflexivity|]. repeat split; tauto. Qed.
Lemma par_set_heap h h' : Forall2 cfg_like h h' -> par eq (set_heap h) (set_heap h').
Proof. intros H s s' (L1 & L2 & L3 & L4 & L5). cbn. split; [reflexivity|]. repeat split; tauto. Qed.
Lemma par_each {A} (f f' : A -> M unit) l : (forall a, par eq (f a) (f' a)) -> par eq (each f l) (each f' l).
Proof. intros H. induction l as [|a l IH]; cbn [each]; [now apply par_ret|]. apply (par_bind eq); auto. Qed.

Lemma par_check_dbs k lf dbs : par eq (check_dbs E k dbs lf) (check_dbs E k dbs lf).
Proof.
  induction dbs as [|i dbs IH]; cbn [check_dbs]; [now apply par_ret|].
  apply (par_bind eq); [apply par_dbs|]. intros ds ? <-. destruct (nth_error ds i) as [d|]; [|apply par_lift].
  apply (par_bind eq); [destruct d; try (now apply par_ret); now apply par_emit1|]. intros _ _ _.
  apply (par_bind eq); [apply par_lift|]. intros [r d'] ? <-. apply (par_bind eq); [apply par_set_dbs|]. intros _ _ _.
  destruct r as [e|rs].
  - apply (par_bind eq); [apply par_error|]. intros; apply IH.
  - apply (par_bind eq); [apply IH|]. intros rest ? <-. now apply par_ret.
Qed.

Lemma transpose_like i1 i2 all pkgs : forall i,
  match transpose_all pkgs i1 i all, transpose_all pkgs i2 i all with
  | Ok a, Ok b => Forall2 (same_row i1 i2) a b | Panic, Panic => True | _, _ => False end.
Proof.
  induction pkgs as [|p ps IH]; intros i; cbn [transpose_all]; [constructor|].
  unfold transpose. destruct (column i all) as [vs|]; [|exact I]. cbn [rbind].
  destruct (fold_left (transpose_step i1) vs ([], [])) as [a b] eqn:F1. destruct (fold_left (transpose_step i2) vs ([], [])) as [a' b'] eqn:F2.
  cbn [rbind]. specialize (IH (i + 1)). destruct (transpose_all ps i1 (i + 1) all), (transpose_all ps i2 (i + 1) all); try contradiction; [|exact I].
  cbn [rbind]. constructor; [|exact IH]. split; [reflexivity|].
  destruct (fold_divided i1 vs _ (eq_sym F1)) as (k & D & S1 & S2). destruct (fold_divided i2 vs _ (eq_sym F2)) as (k' & D' & S1' & S2').
  rewrite <- (dedup_fun _ _ _ D D') in *. exists k. split; [apply (dedup_props _ _ D)|]. split; split; assumption.
Qed.

Lemma par_check k use lf i1 i2 :
  par (fun x x' => fst x = fst x' /\ rp_lock (snd x) = rp_lock (snd x') /\ Forall2 (same_row i1 i2) (rp_pkgs (snd x)) (rp_pkgs (snd x')))
      (check_lockfile E k use lf i1) (check_lockfile E k use lf i2).
Proof.
  unfold check_lockfile. apply (par_bind eq); [apply par_check_dbs|]. intros raw ? <-.
  apply (par_bind (Forall2 (same_row i1 i2))).
  - intros s s' L. unfold lift. pose proof (transpose_like i1 i2 raw (lf_pkgs lf) 0) as T.
    destruct (transpose_all _ i1 _ _), (transpose_all _ i2 _ _); try contradiction; auto.
  - intros a b F. apply par_ret. cbn. auto.
Qed.

Lemma cfg_like_refl c : cfg_like c c.
Proof. repeat split; auto. Qed.
Lemma upd_like h h' i c c' : Forall2 cfg_like h h' -> cfg_like c c' -> Forall2 cfg_like (upd h i c) (upd h' i c').
Proof. intros F C. revert i. induction F as [|a b h h' Ha F IH]; intros [|i]; cbn; constructor; auto. Qed.
Lemma nth_like h h' i : Forall2 cfg_like h h' -> cfg_like (nth i h empty_config) (nth i h' empty_config).
Proof. intros F. revert i. induction F as [|a b h h' Ha F IH]; intros [|i]; cbn; auto using cfg_like_refl. Qed.

(** ignoring more leaves no more to find *)
Lemma selects_mono {A} (P Q : A -> Prop) k a b : (forall x, Q x -> P x) -> selects P k a -> selects Q k b -> selects Q a b.
Proof.
  intros PQ Sa. revert b. induction Sa as [|x l sel Hp Sa IH|x l sel Hp Sa IH]; intros b Sb.
  - inversion Sb. constructor.
  - inversion Sb; subst; [apply sel_take|apply sel_skip]; auto.
  - inversion Sb; subst; [now apply PQ in H1|auto].
Qed.
Lemma quieter_rows i1 i2 row row' : incl i1 i2 -> same_row i1 i2 row row' -> quieter_row i1 i2 row row'.
Proof.
  intros I (P & k & _ & (D1 & D2) & (D3 & D4)). split; [exact P|].
  split; [eapply selects_mono; [|exact D1|exact D3]; cbn; intros x Hx Hy; now apply Hx, I|].
  split; [eapply selects_mono; [|exact D4|exact D2]; cbn; intros x Hx; now apply I|].
  split; intros v V.
  - apply (selects_in _ _ _ _ D1) in V as [V _]. destruct (in_dec string_dec (o_id v) i2) as [Y|Y].
    + right. now apply (selects_in _ _ _ _ D4).
    + left. now apply (selects_in _ _ _ _ D3).
  - apply (selects_in _ _ _ _ D4) in V as [V _]. destruct (in_dec string_dec (o_id v) i1) as [Y|Y].
    + right. now apply (selects_in _ _ _ _ D2).
    + left. now apply (selects_in _ _ _ _ D1).
Qed.

Lemma sum_zero l : sum l = 0 <-> Forall (fun n => n = 0) l.
Proof.
  unfold sum. assert (G : forall a, fold_left Nat.add l a = 0 <-> a = 0 /\ Forall (fun n => n = 0) l).
  { induction l as [|x l IH]; intros a; cbn; [split; [intros ->; auto|tauto]|]. rewrite IH. split.
    - intros [H1 H2]. split; [lia|]. constructor; [lia|exact H2].
    - intros [H1 H2]. inversion H2; subst. auto. }
  rewrite G. tauto.
Qed.
Lemma known_mono i1 i2 r r' : incl i1 i2 -> Forall2 (same_row i1 i2) (rp_pkgs r) (rp_pkgs r') -> has_known r = false -> has_known r' = false.
Proof.
  intros I F H. unfold has_known in *. apply Nat.ltb_ge in H. apply Nat.ltb_ge. assert (H0 : count_known r = 0) by lia. clear H.
  enough (count_known r' = 0) by lia. unfold count_known in *. rewrite sum_zero in *.
  induction F as [|a b l l' Hab F IH]; cbn in *; [constructor|]. inversion H0 as [|? ? Z1 Z2]; subst. constructor; [|now apply IH].
  destruct (quieter_rows _ _ _ _ I Hab) as (_ & S & _). destruct (pv_vulns a); [|discriminate]. inversion S. reflexivity.
Qed.

(** the IDs to write into a config *)
Definition entry_like (x y : string * list string) : Prop := fst x = fst y /\ NoDup (snd x) /\ NoDup (snd y) /\ forall i, In i (snd x) <-> In i (snd y).
Lemma pairs_dedup k : ForallOrdPairs (fun a b => ~ related a b) k -> dedup_of k k.
Proof.
  induction k as [|v k IH] using rev_ind; intros F; [constructor|].
  assert (G : forall l x, ForallOrdPairs (fun a b => ~ related a b) (l ++ [x]) -> ForallOrdPairs (fun a b => ~ related a b) l /\ forall y, In y l -> ~ related y x).
  { clear. induction l as [|a l IH]; intros x F; [split; [constructor|intros y []]|]. cbn in F. inversion F as [|? ? F1 F2]; subst.
    destruct (IH _ F2) as [I1 I2]. rewrite Forall_forall in F1. split.
    - constructor; [|exact I1]. apply Forall_forall. intros y Y. apply F1, in_or_app. now left.
    - intros y [<-|Y]; [apply F1, in_or_app; right; now left|now apply I2]. }
  destruct (G _ _ F) as [G1 G2]. constructor; auto.
Qed.
Lemma selects_pairs {A} (R : A -> A -> Prop) P k l : selects P k l -> ForallOrdPairs R k -> ForallOrdPairs R l.
Proof.
  induction 1 as [|x k l Hp S IH|x k l Hp S IH]; intros F; auto; inversion F as [|? ? F1 F2]; subst; [|auto].
  constructor; [|auto]. rewrite Forall_forall in *. intros y Y. apply F1. now apply (selects_in _ _ _ _ S) in Y as [Y _].
Qed.
Lemma unique_pairs l : ForallOrdPairs (fun a b => ~ related a b) l -> unique l = l.
Proof. intros F. exact (dedup_fun _ _ _ (unique_dedup l) (pairs_dedup l F)). Qed.
Lemma row_ids i1 i2 row row' i : same_row i1 i2 row row' ->
  In i (map o_id (unique (pv_vulns row)) ++ map o_id (unique (pv_ignored row))) <-> In i (map o_id (unique (pv_vulns row')) ++ map o_id (unique (pv_ignored row'))).
Proof.
  intros (_ & k & F & (D1 & D2) & (D3 & D4)).
  rewrite !unique_pairs by (eapply selects_pairs; eauto).
  assert (G : forall ii a b, selects (fun v => ~ In (o_id v) ii) k a -> selects (fun v => In (o_id v) ii) k b -> (In i (map o_id a ++ map o_id b) <-> In i (map o_id k))).
  { intros ii a b Sa Sb. rewrite <- map_app, !in_map_iff. split; intros (v & <- & V); exists v; (split; [reflexivity|]).
    - apply in_app_or in V as [V|V]; [now apply (selects_in _ _ _ _ Sa) in V|now apply (selects_in _ _ _ _ Sb) in V].
    - apply in_or_app. destruct (in_dec string_dec (o_id v) ii) as [Y|Y]; [right; now apply (selects_in _ _ _ _ Sb)|left; now apply (selects_in _ _ _ _ Sa)]. }
  now rewrite (G _ _ _ D1 D2), (G _ _ _ D3 D4).
Qed.
Lemma report_ids i1 i2 r r' i : Forall2 (same_row i1 i2) (rp_pkgs r) (rp_pkgs r') -> In i (seen_ids r) <-> In i (seen_ids r').
Proof.
  intros F. unfold seen_ids. induction F as [|a b l l' H F IH]; cbn [flat_map]; [reflexivity|].
  rewrite in_app_iff, (in_app_iff (map o_id (unique (pv_vulns b)) ++ _)), IH, (row_ids _ _ _ _ i H). reflexivity.
Qed.
Lemma seen_get p m m' : Forall2 entry_like m m' ->
  match map_get p m, map_get p m' with Some a, Some b => entry_like (p, a) (p, b) | None, None => True | _, _ => False end.
Proof.
  induction 1 as [|[k v] [k' v'] m m' H F IH]; cbn [map_get]; [exact I|]. destruct H as (Q & H). cbn [fst snd] in *. subst k'.
  destruct (seqb k p); [|exact IH]. split; [reflexivity|exact H].
Qed.
Lemma seen_set p a b m m' : entry_like (p, a) (p, b) -> Forall2 entry_like m m' -> Forall2 entry_like (map_set p a m) (map_set p b m').
Proof.
  intros L. induction 1 as [|[k v] [k' v'] m m' H F IH]; cbn [map_set]; [constructor; auto|]. pose proof H as (Q & _). cbn [fst] in Q. subst k'.
  destruct (seqb k p); constructor; auto.
Qed.
Lemma seen_add p ids ids' m m' : (forall i, In i ids <-> In i ids') -> Forall2 entry_like m m' -> Forall2 entry_like (add_seen p ids m) (add_seen p ids' m').
Proof.
  intros I F. unfold add_seen. apply seen_set; [|exact F]. pose proof (seen_get p m m' F) as G.
  set (a := match map_get p m with Some s => s | None => [] end). set (b := match map_get p m' with Some s => s | None => [] end).
  assert (L : entry_like (p, a) (p, b)).
  { unfold a, b. destruct (map_get p m), (map_get p m'); try contradiction; [exact G|]. split; [reflexivity|]. cbn. repeat split; auto; constructor. }
  destruct L as (_ & N1 & N2 & L). cbn [fst snd] in *. split; [reflexivity|]. cbn [snd].
  split; [exact (eco_set_nodup (fun x => x) _ _ N1)|]. split; [exact (eco_set_nodup (fun x => x) _ _ N2)|].
  intros i. rewrite (eco_set_in (fun x => x) ids a i), (eco_set_in (fun x => x) ids' b i), L.
  split; intros [H|(q & Q & <-)]; auto; right; exists q; (split; [now apply I|reflexivity]).
Qed.

Definition exit_like (e e' : Z) : Prop := quieter O O' -> e = e' \/ e = 1%Z /\ e' = 0%Z.

Lemma par_check_files fs : forall k e e' seen seen', exit_like e e' -> Forall2 entry_like seen seen' ->
  par (fun x x' => exit_like (fst x) (fst x') /\ Forall2 entry_like (snd x) (snd x')) (check_files E O fs k e seen) (check_files E O' fs k e' seen').
Proof.
  induction fs as [|f fs IH]; intros k e e' seen seen' HX HS; cbn [check_files]; [now apply par_ret|].
  apply (par_bind eq); [destruct (Nat.leb 1 k); [apply par_text|now apply par_ret]|]. intros _ _ _.
  destruct (l_err f) as [er|].
  - apply (par_bind eq); [apply par_error|]. intros _ _ _. apply IH; [|exact HS]. intros _. now left.
  - apply (par_bind (Forall2 cfg_like)); [apply par_heap|]. intros h h' Hh.
    assert (C0 := nth_like h h' (l_cfg f) Hh).
    set (c0 := nth (l_cfg f) h empty_config) in *. set (c0' := nth (l_cfg f) h' empty_config) in *.
    set (c := if o_no_ignores O then mkCfg (cf_path c0) [] (cf_dbs c0) else c0).
    set (c' := if o_no_ignores O' then mkCfg (cf_path c0') [] (cf_dbs c0') else c0').
    assert (C : cfg_like c c').
    { exact (strip_like _ _ _ _ C0). }
    apply (par_bind eq); [apply par_set_heap; now apply upd_like|]. intros _ _ _.
    apply (par_bind eq); [apply par_text|]. intros _ _ _. change (o_list_pkgs O') with (o_list_pkgs O).
    destruct (o_list_pkgs O).
    + apply (par_bind eq); [apply par_result; left; eauto|]. intros _ _ _. now apply IH.
    + destruct C as (Q1 & Q2 & Q3). rewrite <- Q1, <- Q2.
      apply (par_bind eq).
      { destruct (negb (seqb (cf_path c) "")); [|now apply par_ret]. unfold print_text. apply par_emit. cbn [o_json O' ignoring].
        destruct (bool_dec (o_no_ignores O) no) as [D|D].
        - rewrite <- (Q3 D). cbn [o_no_ignores O' ignoring]. rewrite <- D. now apply le_same.
        - now apply le_config. }
      intros _ _ _. apply (par_bind eq); [apply par_dbs|]. intros dbs ? <-.
      apply (par_bind eq); [apply par_each; intros i; destruct (nth_error dbs i); [apply par_text|now apply par_ret]|]. intros _ _ _.
      apply (par_bind eq); [apply par_text|]. intros _ _ _.
      eapply par_bind; [apply par_check|]. intros [raw r] [raw' r'] (X1 & X2 & X3). cbn [fst snd] in *. subst raw'.
      apply (par_bind eq).
      { apply par_emit, le_check. split; [reflexivity|]. split; [reflexivity|]. split; [reflexivity|].
        split; [|split; [exact X2|exact X3]]. cbn [ck_ignores]. eexists _, _. split; [reflexivity|]. split; [reflexivity|].
        cbn [o_no_ignores O' ignoring]. split; [|split].
        - intros D. rewrite <- D. now rewrite (Q3 D).
        - intros N. now rewrite N, andb_false_r.
        - intros N. now rewrite N, andb_false_r. }
      intros _ _ _. apply (par_bind eq); [apply par_result; right; eauto|]. intros _ _ _. apply IH.
      2:{ cbn [o_update O' ignoring]. destruct (o_update O && _); [|exact HS]. apply seen_add; [|exact HS]. intros i. eapply report_ids; exact X3. }
      intros Qq. destruct (HX Qq) as [->|[-> ->]].
      * destruct (has_known r) eqn:K1, (has_known r') eqn:K2; cbn [andb]; auto.
        -- destruct (Z.eqb e' 0) eqn:Z0; [|auto]. right. split; [reflexivity|]. now apply Z.eqb_eq.
        -- enough (has_known r' = false) by congruence. refine (known_mono _ _ _ _ _ X3 K1).
           destruct Qq as [Qa Qb]. cbn [o_no_ignores o_ignores O' ignoring] in Qa, Qb |- *.
           apply incl_app; [|now apply incl_appr]. apply incl_appl.
           destruct (o_no_ignores O) eqn:ON; [rewrite andb_false_r; apply incl_nil_l|].
           assert (N : no = false) by (apply not_true_is_false; intros N; now discriminate (Qa N)).
           rewrite (Q3 (eq_sym N)), N. apply incl_refl.
      * cbn [Z.eqb]. rewrite andb_false_r, andb_true_r. destruct (has_known r'); auto.
Qed.

(** everything else is the same *)
Lemma st_like_refl s : checks (s_trace s) = [] -> st_like s s.
Proof.
  intros H. split; [|repeat split; auto].
  - induction (s_trace s) as [|x l IH]; constructor.
    + apply le_same. unfold checks in *. cbn in *. destruct x; auto. discriminate.
    + apply IH. unfold checks in *. cbn in *. destruct x; auto. discriminate.
  - induction (s_heap s); constructor; auto using cfg_like_refl.
Qed.

(** what a run does before its checks *)
Lemma par_self {A} (m : M A) s : st_like s s -> checks (s_trace (snd (m s))) = [] ->
  match m s with (Ok a, s1) => st_like s1 s1 | (Panic, s1) => st_like s1 s1 end.
Proof. intros L H. destruct (m s) as [[a|] s1]; now apply st_like_refl. Qed.
End Quiet.
