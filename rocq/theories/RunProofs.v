From Verif Require Import GoStr GoStrFacts GoSort GoSortFacts Types Osv OsvSpec MemDB MemDBSpec MemDBProofs Path PathFacts Api ZipDB DirDB DbConfig Configer ConfigSpec ConfigProofs GoMap Lockfile LockfileSpec LockfileProofs Csv Ecosystems Report ReportSpec ReportProofs Main MainSpec MainTrace MainProofs DiscoverProofs Surface.

(** ** configs of a run *)
Lemma load_config_path pu dec fs path c errs : load_config pu dec fs path = inr (c, errs) ->
  cf_path c = clean path /\ exists raw, usable dec (fs (cf_path c)) raw /\ cf_ignore c = rc_ignore raw.
Proof.
  intros H. apply load_config_good in H as (raw & U & P & I & D). split; [exact P|]. exists raw. now rewrite P.
Qed.
Definition sourced (dec : string -> option raw_config) (fs : string -> fread) (c : Config) : Prop :=
  c = empty_config \/ (cf_path c <> "" /\ clean (cf_path c) = cf_path c
                       /\ exists raw, usable dec (fs (cf_path c)) raw /\ cf_ignore c = rc_ignore raw).
Lemma load_config_sourced pu dec fs path c errs : load_config pu dec fs path = inr (c, errs) -> sourced dec fs c.
Proof.
  intros H. apply load_config_path in H as [P R]. right. rewrite P at 1 2 3. split; [apply clean_nonempty|]. split; [apply clean_idem|exact R].
Qed.
Lemma find_config_sourced pu dec fs dir c errs : find_config pu dec fs dir = inr (c, errs) -> sourced dec fs c.
Proof.
  unfold find_config. destruct (load_config pu dec fs _) as [[p|p|p]|[c1 e1]] eqn:L1; try discriminate.
  - destruct (load_config pu dec fs (dir +s+ "/" +s+ ".osv-detector" +s+ ".yaml")) as [[q|q|q]|[c2 e2]] eqn:L2; try discriminate.
    + intros H. injection H as <- _. now left.
    + intros H. injection H as -> _. eapply load_config_sourced; eauto.
  - intros H. injection H as -> _. eapply load_config_sourced; eauto.
Qed.
Lemma mode_sourced E O fs c : mode_of E O fs (Same c) -> sourced (e_dec_yaml E) fs c.
Proof. intros H. inversion H; subst; [now left|]. eapply load_config_sourced; eauto. Qed.
Lemma config_sourced E O fs mode path c : mode_of E O fs mode -> config_for E fs path mode (Some c) -> sourced (e_dec_yaml E) fs c.
Proof. intros M H. inversion H; subst; [eapply mode_sourced; eauto|eapply find_config_sourced; eauto]. Qed.
Lemma usable_sourced E O fs mode paths rs l c : mode_of E O fs mode -> Forall2 (reads E O fs mode) paths rs ->
  In (l, c) (usables rs) -> sourced (e_dec_yaml E) fs c.
Proof.
  intros M F I. unfold usables in I. apply in_flat_map in I as (r & R & I). destruct r as [|l0 c0]; [destruct I|]. destruct I as [I|[]]. injection I as -> ->.
  clear - M F R. induction F as [|p r paths rs H F IH]; [destruct R|]. destruct R as [->|R]; [|auto].
  inversion H; subst. eapply config_sourced; eauto.
Qed.

(** ** messages *)
Lemma messages_app k a b : messages k (a ++ b) = messages k a ++ messages k b. Proof. apply flat_map_app. Qed.
Lemma err_messages tr : existsb is_err tr = true <-> messages KErr tr <> [].
Proof.
  induction tr as [|e tr IH]; cbn; [split; [discriminate|contradiction]|].
  destruct e as [[] s t| | | | | | |]; cbn; try exact IH. split; [discriminate|reflexivity].
Qed.
Lemma no_err_messages tr : existsb is_err tr = false <-> messages KErr tr = [].
Proof.
  rewrite <- not_true_iff_false, err_messages. destruct (messages KErr tr); split; intros H; auto; try discriminate; try contradiction.
  exfalso. apply H. discriminate.
Qed.

Section Run.
Variable E : Env.
Variable O : Opts.
Hypothesis SO : SorterOk (e_sort E).
Hypothesis IT : IterOk (e_iter E).
Notation Evolves := (evolves (e_sort E) (e_sem E)).

Lemma all_names_in files f p : In f files -> In p (lf_pkgs (l_lock f)) -> In (p_name p) (all_names E files).
Proof.
  intros F P. unfold all_names. eapply Permutation_in; [apply IT|].
  apply (eco_set_in (fun p => p_name p)). right. exists p. split; [|reflexivity]. apply in_flat_map. eauto.
Qed.
Lemma goods_in f files : In f (goods files) <-> In f files /\ l_err f = None.
Proof. unfold goods. rewrite filter_In. destruct (l_err f); intuition discriminate. Qed.
Lemma unusable_exists h files rs : Forall2 (file_of h) files rs ->
  (existsb (fun f => match l_err f with None => false | _ => true end) files = true <-> In Unusable rs).
Proof.
  induction 1 as [|f r files rs H F IH]; cbn; [split; [discriminate|contradiction]|].
  rewrite orb_true_iff, IH. destruct r as [|l c]; cbn in H.
  - destruct (l_err f); [|contradiction]. tauto.
  - destruct H as (-> & _). split; [intros [Q|Q]; [discriminate|auto]|intros [Q|Q]; [discriminate|auto]].
Qed.
Lemma get_configs_goods h files : get_configs h files = map (fun f => nth (l_cfg f) h empty_config) (goods files).
Proof.
  unfold get_configs, goods. induction files as [|f files IH]; [reflexivity|]. cbn [flat_map filter]. destruct (l_err f); cbn; now rewrite IH.
Qed.
Lemma flawed_exists cks : existsb (fun c => has_known (ck_report c)) cks = true <-> Exists flawed cks.
Proof.
  rewrite existsb_exists, Exists_exists. split; intros (x & X1 & X2); exists x; (split; [exact X1|]); now apply has_known_iff.
Qed.

(** what a run does with the IDs it saw *)
Definition seen_of (cks : list checked) : list (string * list string) := fold_left (fun m ck => add_check O ck m) cks [].
Lemma seen_snoc cks ck : seen_of (cks ++ [ck]) = add_check O ck (seen_of cks).
Proof. unfold seen_of. now rewrite fold_left_app. Qed.
Lemma seen_nodup cks : NoDup (map fst (seen_of cks)).
Proof.
  induction cks as [|ck cks IH] using rev_ind; [constructor|]. rewrite seen_snoc. unfold add_check. destruct (_ && _); [|exact IH].
  now apply map_set_nodup.
Qed.
Lemma seen_get cks p v : map_get p (seen_of cks) = Some v ->
  p <> "" /\ o_update O = true /\ (exists ck, In ck cks /\ ck_cfg ck = p)
  /\ forall id, In id v <-> exists ck, In ck cks /\ ck_cfg ck = p /\ In id (seen_ids (ck_report ck)).
Proof.
  revert p v. induction cks as [|ck cks IH] using rev_ind; intros p v H; [discriminate|]. rewrite seen_snoc in H. unfold add_check in H.
  assert (Old : map_get p (seen_of cks) = Some v -> p <> ck_cfg ck \/ o_update O && negb (seqb (ck_cfg ck) "") = false ->
    p <> "" /\ o_update O = true /\ (exists ck0, In ck0 (cks ++ [ck]) /\ ck_cfg ck0 = p)
    /\ forall id, In id v <-> exists ck0, In ck0 (cks ++ [ck]) /\ ck_cfg ck0 = p /\ In id (seen_ids (ck_report ck0))).
  { intros Q N. destruct (IH _ _ Q) as (A & B & (c0 & C1 & C2) & D). split; [exact A|]. split; [exact B|].
    split; [exists c0; split; [apply in_or_app; now left|exact C2]|]. intros id. rewrite D. split.
    - intros (x & X1 & X2). exists x. split; [apply in_or_app; now left|exact X2].
    - intros (x & X1 & X2 & X3). exists x. split; [|auto]. apply in_app_or in X1 as [X1|[->|[]]]; [exact X1|]. exfalso.
      destruct N as [N|N]; [congruence|]. rewrite B in N. cbn in N. apply negb_false_iff, seqb_eq in N. congruence. }
  destruct (o_update O && negb (seqb (ck_cfg ck) "")) eqn:U; [|auto].
  unfold add_seen in H. rewrite map_get_set in H. destruct (seqb_spec (ck_cfg ck) p) as [E1|E1]; [|auto].
  apply andb_true_iff in U as [U1 U2]. apply negb_true_iff, seqb_neq in U2. injection H as <-. subst p.
  split; [exact U2|]. split; [exact U1|]. split; [exists ck; split; [apply in_or_app; right; now left|reflexivity]|].
  intros id. rewrite (eco_set_in (fun i => i)). split.
  - intros [Q|(i & I & ->)].
    + destruct (map_get (ck_cfg ck) (seen_of cks)) as [s0|] eqn:G; [|destruct Q]. apply IH in G as (_ & _ & _ & D). apply D in Q as (x & X1 & X2).
      exists x. split; [apply in_or_app; now left|exact X2].
    + exists ck. split; [apply in_or_app; right; now left|auto].
  - intros (x & X1 & X2 & X3). apply in_app_or in X1 as [X1|[->|[]]]; [|right; eauto]. left.
    destruct (map_get (ck_cfg ck) (seen_of cks)) as [s0|] eqn:G; [apply IH in G as (_ & _ & _ & D); apply D; eauto|].
    exfalso. clear - G X1 X2 U1 U2. induction cks as [|y cks IH] using rev_ind; [destruct X1|].
    rewrite seen_snoc in G. unfold add_check in G. apply in_app_or in X1 as [X1|[->|[]]].
    + apply IH; [|exact X1]. destruct (_ && _); [|exact G]. unfold add_seen in G. rewrite map_get_set in G. destruct (seqb _ _); [discriminate|exact G].
    + rewrite U1, X2 in G. apply seqb_neq in U2. rewrite U2 in G. cbn in G. unfold add_seen in G. rewrite map_get_set, seqb_refl in G. discriminate.
Qed.
Lemma seen_has cks ck : In ck cks -> o_update O = true -> ck_cfg ck <> "" -> exists v, map_get (ck_cfg ck) (seen_of cks) = Some v.
Proof.
  intros I U N. induction cks as [|y cks IH] using rev_ind; [destruct I|]. rewrite seen_snoc. unfold add_check. rewrite U. cbn [andb].
  apply in_app_or in I as [I|[->|[]]].
  - destruct (IH I) as (v & Hv). destruct (negb _); [|eauto]. unfold add_seen. rewrite map_get_set. destruct (seqb _ _); eauto.
  - apply seqb_neq in N. rewrite N. cbn [negb]. unfold add_seen. rewrite map_get_set, seqb_refl. eauto.
Qed.
Definition exit_code (rs : list reading) (tr : list ev) (errored : bool) (code : Z) : Prop :=
  code = (let x := if existsb (fun r => match r with Unusable => true | _ => false end) rs || negb (Nat.eqb (List.length (failures tr)) 0) then 127%Z
          else if existsb (fun c => has_known (ck_report c)) (checks tr) then 1%Z else 0%Z in
          if errored && Z.eqb x 0 then 127%Z else x).
Definition longer (x y : St) : Prop :=
  (exists n, s_trace y = s_trace x ++ n /\ checks n = [] /\ loads n = [] /\ failures n = []) /\ s_results y = s_results x.
Lemma longer_refl x : longer x x. Proof. split; [exists []; rewrite app_nil_r; auto|reflexivity]. Qed.
Lemma longer_trans x y z : longer x y -> longer y z -> longer x z.
Proof.
  intros [(m1 & M1 & A1 & B1 & C1) M2] [(m3 & M3 & A3 & B3 & C3) M4]. split; [|congruence]. exists (m1 ++ m3).
  rewrite checks_app, loads_app, failures_app, A1, B1, C1, A3, B3, C3, M3, M1, app_assoc. auto.
Qed.
Lemma longer_emit e : match e with ECheck _ _ _ _ _ | ELoad _ | ELoadFailed _ _ => False | _ => True end -> keeps longer (emit e).
Proof. intros H x. split; [exists [e]; repeat split; destruct e; reflexivity || destruct H|reflexivity]. Qed.
Lemma write_longer seen : keeps longer (write_updated_configs E O seen).
Proof.
  pose proof longer_refl as Rr. pose proof longer_trans as Rt. pose proof longer_emit as Re.
  unfold write_updated_configs. apply (keeps_bind _ Rt); [destruct (negb _); [now apply Re|now apply keeps_ret]|]. intros _.
  apply (keeps_bind _ Rt).
  - induction (e_iter E _ seen) as [|[p v] l IH]; cbn [update_all]; [now apply keeps_ret|].
    apply (keeps_bind _ Rt); [|intros a; apply (keeps_bind _ Rt); [exact IH|intros b; now apply keeps_ret]].
    unfold update_one. apply (keeps_bind _ Rt); [now apply keeps_get|]. intros fs. apply (keeps_bind _ Rt); [now apply Re|]. intros _.
    destruct (update_with_ignores _ _ _ _ _ _); [now apply keeps_ret|]. apply (keeps_bind _ Rt); [now apply Re|]. intros _.
    apply (keeps_bind _ Rt); [intros a; split; [exists []; cbn; rewrite app_nil_r; auto|reflexivity]|]. intros _. now apply keeps_ret.
  - intros lines. apply keeps_each; auto. intros a _. destruct (has_prefix a "Error updating"); [|now apply Re].
    unfold print_error. apply (keeps_bind _ Rt); [|intros _; now apply Re]. intros x. split; [exists []; cbn; rewrite app_nil_r; auto|reflexivity].
Qed.
Lemma K_load_cfg path : keeps same_cache (load_cfg E path).
Proof. unfold load_cfg, report_db_errs. kk. Qed.
Lemma K_find_cfg dir : keeps same_cache (find_cfg E dir).
Proof. unfold find_cfg. apply (keeps_bind _ same_cache_trans); [apply K_load_cfg|]. intros [[]|]; kk; apply K_load_cfg. Qed.
Lemma K_read_all paths local : forall cfg, keeps same_cache (read_all E O paths local cfg).
Proof.
  induction paths as [|p ps IH]; intros cfg; cbn [read_all]; [kk|]. unfold alloc, load_at.
  destruct local; [apply (keeps_bind _ same_cache_trans); [apply K_find_cfg|]; intros []|]; kk; apply IH.
Qed.
Lemma K_adjust files : keeps same_cache (adjust_all E O files).
Proof. unfold adjust_all, adjust_one. kk. Qed.
Lemma K_find_all : keeps same_cache (find_all_lockfiles E O).
Proof.
  unfold find_all_lockfiles. destruct (seqb _ _); [kk|]. induction (o_args O) as [|p ps IH]; cbn [find_all_loop]; [kk|].
  unfold find_lockfiles. kk.
Qed.
Lemma run_files_spec cache mode paths cfg s code s' : o_list_pkgs O = false -> (forall path, cached E O cache path (s_cache s path)) ->
  run_files E O paths (mode_local mode) cfg s = (Ok code, s') ->
  mode_of E O (s_files s) mode ->
  (forall c, mode = Same c -> cfg < List.length (s_heap s) /\ nth cfg (s_heap s) empty_config = c) ->
  exists n1 n2 s1 rs names ds, s_trace s1 = s_trace s ++ n1 /\ s_trace s' = s_trace s ++ n1 ++ n2 /\ writes n1 = []
    /\ checks n2 = [] /\ loads n2 = [] /\ failures n2 = []
    /\ s_files s1 = s_files s
    /\ session E O (s_files s) cache mode paths rs names ds n1
    /\ s_results s' = (if o_json O then s_results s ++ map (fun c => RReport (ck_report c)) (checks n1) else s_results s)
    /\ exit_code rs n1 (s_errored s') code
    /\ (if o_update O then write_updated_configs E O (seen_of (checks n1)) else ret tt) s1 = (Ok tt, s')
    /\ forall e, (e = true -> s_errored s = true) ->
         (forall c errs, mode <> Beside -> o_no_config O = false ->
            load_config (w_parse_uri (e_world E)) (e_dec_yaml E) (s_files s) (o_config O) = inr (c, errs) -> errs <> [] -> s_errored s = true) ->
         mishap E O (s_files s) paths e mode rs n1 -> s_errored s' = true.
Proof.
  intros HL CA H HM HC. pose proof (keeps_at _ _ _ _ _ (M_run_files E O _ _ _) H) as MR. unfold run_files in H.
  step H lfs s1 Hr. pose proof Hr as Hread. pose proof (keeps_at _ _ _ _ _ (K_read_all _ _ _) Hr) as KR.
  assert (Mono1 : mono s1 s').
  { eapply keeps_at; [|exact H]. apply M_bind; [apply M_adjust|]. intros _. apply M_bind; [mm|]. intros h.
    apply M_bind; [apply M_load_databases|]. intros x. apply M_bind; [mm|]. intros _. apply M_bind; [apply M_check_files|]. intros y.
    apply M_bind; [destruct (o_update O); [apply M_write|mm]|]. intros _. mm. }
  apply (read_all_spec E O mode) in Hr; [|exact HC].
  destruct Hr as (((n1 & T1 & Q1) & F1 & R1 & D1) & (more & Hm & Hms) & (rs & RD & FO) & AD).
  assert (SE : forall c, mode = Same c -> cf_path c = "" -> c = empty_config).
  { intros c -> P. destruct (mode_sourced _ _ _ _ HM) as [|[N _]]; [assumption|contradiction]. }
  destruct (adjust_spec E O SO IT mode cfg lfs rs s1 (List.length (s_heap s)) SE) as (h' & AA & AF & AG); [|exact FO|].
  { destruct (mode_shared mode) eqn:MS; [|exact AD].
    pose proof (proj1 (shared_iff mode SE) MS) as Sh. rewrite (Hms eq_refl), app_nil_r in Hm. rewrite Hm.
    unfold shared in Sh. destruct (HC _ Sh). auto. }
  step H u s2 Ha. rewrite AA in Ha. injection Ha as _ <-. step H h s3 Hg. injection Hg as <- <-. cbn [with_heap s_heap] in H.
  step H x s4 Hl. unfold load_databases in Hl. rewrite HL in Hl. step Hl up sp Hp0.
  assert (K : still (with_heap s1 h') sp) by (eapply keeps_at; [|exact Hp0]; ss).
  assert (KC : same_cache (with_heap s1 h') sp) by (eapply keeps_at; [|exact Hp0]; kk). clear Hp0. step Hl r s5 Hll. step Hl u0 s5b Hpt.
  assert (K0 : still s5 s5b) by (eapply keeps_at; [|exact Hpt]; ss). assert (Mono3 : mono s5 s5b) by (eapply keeps_at; [|exact Hpt]; mm). injection Hl as -> ->.
  assert (Mono2 : mono s4 s').
  { eapply keeps_at; [|exact H]. apply M_bind; [mm|]. intros _. apply M_bind; [apply M_check_files|]. intros y.
    apply M_bind; [destruct (o_update O); [apply M_write|mm]|]. intros _. mm. }
  destruct x as [ds b].
  assert (EL : b = true -> s_errored s5 = true) by (intros ->; eapply load_loop_errored; exact Hll).
  apply (load_loop_spec _ _ cache) in Hll; [|intros path; rewrite KC; unfold with_heap; cbn [s_cache]; rewrite KR; apply CA]. destruct Hll as (n2 & T2 & C2 & W2 & L2 & LD & Hb & Hh2 & Hf2 & Hr2 & Hd2).
  destruct K as [[n0 T0 Q0 Hh0 Hf0 Hr0] D0]. destruct K0 as [[n3 T3 Q3 Hh3 Hf3 Hr3] D3]. cbn [with_heap s_trace s_heap s_files s_results s_dbs] in *.
  step H u4 s6 Hs. unfold set_dbs in Hs. injection Hs as _ <-. cbn [fst snd] in H.
  step H y s7 Hc. destruct y as [exit' seen'].
  assert (Mono4 : mono s7 s') by (eapply keeps_at; [|exact H]; apply M_bind; [destruct (o_update O); [apply M_write|mm]|intros _; mm]).
  assert (EU : Exists (fun f => l_err f <> None) lfs -> s_errored s7 = true) by (eapply check_files_errored; exact Hc).
  pose proof (check_files_lacking E O lfs HL _ _ _ _ _ _ Hc) as (n4' & T4' & EK).
  apply (check_files_spec E O ds h' HL) in Hc.
  2:{ apply Forall_forall. intros f G. eapply Forall_forall in AF; [|exact G]. destruct AF as [N (P & I & _)]. split; [exact N|].
      rewrite P, I. intros Pe. assert (In (usable_of (s_heap s1) f) (usables rs)) as U by (rewrite (files_usables _ _ _ FO); now apply in_map).
      pose proof (usable_sourced E O (s_files s) mode paths rs _ _ HM RD U) as [-> |[N' _]]; [reflexivity|contradiction]. }
  2:{ cbn [s_dbs]. clear. induction ds; constructor; auto. apply evolves_refl. }
  2:{ cbn [s_heap]. rewrite Hh3, Hh2, Hh0. apply same_but_refl. }
  destruct Hc as (n4 & T4 & L4 & X4 & W4 & CF & R4 & EX & SN & F4). cbn [s_trace s_results s_files] in *.
  step H u5 s8 Hw. destruct u5. step H er s9 Hg. injection Hg as <- <-. injection H as <- <-. cbn [fst snd] in Hw |- *.
  assert (W : longer s7 s8).
  { destruct (o_update O).
    - pose proof (write_longer seen') as KW.
      specialize (KW s7). now rewrite Hw in KW.
    - injection Hw as <-. apply longer_refl. }
  destruct W as [(n5 & T5 & N1 & N2 & N3) R5].
  destruct (quiet_none _ Q1) as (A0 & A1 & A2 & A3). destruct (quiet_none _ Q0) as (B0 & B1 & B2 & B3). destruct (quiet_none _ Q3) as (M0 & M1 & M2 & M3).
  set (nn := n1 ++ n0 ++ n2 ++ n3 ++ n4).
  assert (CK : checks nn = checks n4) by (unfold nn; rewrite !checks_app, A0, B0, C2, M0; reflexivity).
  assert (LK : loads nn = loads n2) by (unfold nn; rewrite !loads_app, A1, B1, M1, L4, !app_nil_r; reflexivity).
  assert (FK : failures nn = failures n2) by (unfold nn; rewrite !failures_app, A2, B2, M2, X4, !app_nil_r; reflexivity).
  exists nn, n5, s7, rs, (all_names E lfs), ds.
  split; [unfold nn; rewrite T4, T3, T2, T0, T1, <- !app_assoc; reflexivity|].
  split; [unfold nn; rewrite T5, T4, T3, T2, T0, T1, <- !app_assoc; reflexivity|].
  split; [unfold nn; rewrite !writes_app, A3, B3, W2, M3, W4; reflexivity|].
  split; [exact N1|]. split; [exact N2|]. split; [exact N3|].
  split; [congruence|].
  split; [|split; [rewrite CK, R5, R4, Hr3, Hr2, Hr0, R1; reflexivity|split; [|split]]].
  - pose proof (files_usables _ _ _ FO) as HU.
    constructor.
    + exact HM.
    + exact RD.
    + intros l c p U P. rewrite HU in U. apply in_map_iff in U as (f & Uf & G). injection Uf as <- _. apply goods_in in G as [G _].
      eapply all_names_in; eauto.
    + intros id. rewrite LK, L2, get_configs_goods. set (cs := map cf_dbs _). destruct (unique_once cs) as (U1 & U2 & U3). split.
      * intros X. apply in_map_iff in X as (d & <- & X). apply U2 in X. unfold cs in X. apply in_concat in X as (l0 & X1 & X2).
        apply in_map_iff in X1 as (c' & <- & X1). apply in_map_iff in X1 as (f & <- & G).
        eapply Forall_forall in AF; [|exact G]. destruct AF as [_ (_ & _ & IE)].
        destruct (proj1 (IE (identifier d)) (in_map _ _ _ X2)) as (d' & As & Ed).
        exists (l_lock f), (nth (l_cfg f) (s_heap s1) empty_config), d'. split; [|auto]. rewrite HU. apply (in_map (usable_of (s_heap s1)) _ f G).
      * intros (l & c & d & U & As & <-). rewrite HU in U. apply in_map_iff in U as (f & Uf & G). injection Uf as <- <-.
        eapply Forall_forall in AF; [|exact G]. destruct AF as [_ (_ & _ & IE)].
        assert (X : In (identifier d) (map identifier (cf_dbs (nth (l_cfg f) h' empty_config)))) by (apply IE; eauto).
        apply in_map_iff in X as (d' & Ed & X). rewrite <- Ed. apply U3. apply in_concat.
        exists (cf_dbs (nth (l_cfg f) h' empty_config)). split; [|exact X]. unfold cs. apply in_map.
        apply (in_map (fun f => nth (l_cfg f) h' empty_config) _ f G).
    + rewrite LK, L2. apply unique_once.
    + rewrite LK, FK, L2. exact LD.
    + rewrite CK. revert AF. generalize (usables rs) at 1 2 as us. intros us AF. rewrite HU. clear - CF AF. induction CF as [|f ck fs cks (k & Hk) CF IH]; cbn [map]; [constructor|].
      inversion AF as [|? ? A1 A2]; subst. constructor; [|apply IH; exact A2]. unfold usable_of at 1. exists k, (nth (l_cfg f) h' empty_config). split; [apply A1|exact Hk].
    + intros d. rewrite LK, L2, get_configs_goods. intros X. apply (proj1 (proj2 (unique_once _))) in X. apply in_concat in X as (l0 & X1 & X2).
      apply in_map_iff in X1 as (c' & <- & X1). apply in_map_iff in X1 as (f & <- & G).
      eapply Forall_forall in AG; [|exact G]. exists (l_lock f), (nth (l_cfg f) (s_heap s1) empty_config). split; [|now apply AG].
      rewrite HU. apply (in_map (usable_of (s_heap s1)) _ f G).
  - unfold exit_code. rewrite CK, FK. cbv zeta. rewrite EX. unfold exit_after. rewrite <- Hb.
    assert (UX : existsb (fun r => match r with Unusable => true | _ => false end) rs = existsb (fun f => match l_err f with None => false | _ => true end) lfs).
    { clear - FO. induction FO as [|f r lfs rs H F IH]; [reflexivity|]. cbn [existsb]. rewrite IH. f_equal. destruct r as [|l c]; cbn in H; [now destruct (l_err f)|].
      destruct H as (-> & _). reflexivity. }
    rewrite UX. destruct (existsb _ lfs); [reflexivity|]. cbn [orb]. destruct b; reflexivity.
  - rewrite CK. unfold seen_of. rewrite <- SN. exact Hw.
  - intros e He Hg MH. destruct MH as [Me|Mu|c errs Mm Mn Ml Me|p c errs -> Mp Ml Me|Mf|Ma|ck Mu Mk Mc Mo].
    + apply MR, He, Me.
    + apply Mono4, EU. apply (unusable_exists _ _ _ FO) in Mu. apply existsb_exists in Mu as (f & F & Q). apply Exists_exists. exists f. split; [exact F|].
      destruct (l_err f); discriminate.
    + apply MR. eapply Hg; eauto.
    + apply Mono1. eapply read_all_errored; eauto.
    + apply Mono2, Mono3, EL. rewrite FK in Mf. rewrite Hb. destruct (failures n2); [contradiction|reflexivity].
    + apply Mono4, EK. rewrite CK in Ma. replace n4' with n4; [exact Ma|]. eapply app_inv_head. rewrite <- T4'. cbn [s_trace]. now symmetry.
    + rewrite CK in Mk. destruct (seen_has (checks n4) ck Mk Mu Mc) as (v & Hv).
      rewrite Mu in Hw. rewrite SN in Hw. apply MemDBProofs.map_get_in in Hv; [|apply seen_nodup]. eapply write_errored; eauto.
Qed.

(** ** the whole run *)
Definition steady (x y : St) : Prop :=
  s_heap y = s_heap x /\ s_files y = s_files x /\ s_results y = s_results x
  /\ exists n, s_trace y = s_trace x ++ n /\ idle n.
Lemma idle_nil : idle []. Proof. repeat split. Qed.
Lemma idle_app a b : idle a -> idle b -> idle (a ++ b).
Proof.
  intros (A1 & A2 & A3 & A4) (B1 & B2 & B3 & B4). unfold idle. now rewrite checks_app, loads_app, failures_app, writes_app, A1, A2, A3, A4, B1, B2, B3, B4.
Qed.
Lemma idle_out k st t : idle [EOut k st t]. Proof. repeat split. Qed.
Lemma still_steady s s' : still s s' -> steady s s'.
Proof. intros [[n T Q H F R] _]. repeat split; auto. exists n. split; [exact T|]. now apply quiet_none in Q. Qed.
Lemma steady_trans a b c : steady a b -> steady b c -> steady a c.
Proof.
  intros (A1 & A2 & A3 & n & A4 & A5) (B1 & B2 & B3 & m & B4 & B5). repeat split; try congruence. exists (n ++ m).
  split; [now rewrite B4, A4, app_assoc|now apply idle_app].
Qed.
Lemma find_all_still : keeps still (find_all_lockfiles E O).
Proof.
  unfold find_all_lockfiles. destruct (seqb (o_parse_as O) parse_as_csv_row); [ss|].
  induction (o_args O) as [|p ps IH]; cbn [find_all_loop]; [ss|].
  destruct (split_parse_as p) as [a path]. unfold find_lockfiles.
  ss.
Qed.
Lemma known_as_iff a : known_parse_as a = true <-> known_as a.
Proof.
  unfold known_parse_as, known_as, parse_as_csv_file, parse_as_csv_row. rewrite !orb_true_iff, !seqb_eq.
  pose proof (find_parser_spec "" a) as F. destruct (find_parser "" a) as [f n]. cbn [fst]. destruct F as (F1 & F2 & F3).
  destruct (string_dec a "") as [A|A]; [split; auto|]. specialize (F1 A). subst n.
  assert (F4 : (exists g, f = Some g) <-> In a supported) by exact F3.
  destruct f as [g|]; split.
  - intros _. right. right. right. apply F4. eauto.
  - auto.
  - intros [[[Q|Q]|Q]|Q]; auto. discriminate.
  - intros [Q|[Q|[Q|Q]]]; auto. apply F4 in Q as (g & Q). discriminate.
Qed.
Lemma exit_exits rs tr code : exit_code rs tr (existsb is_err tr) code -> exits rs tr code.
Proof.
  unfold exit_code. cbv zeta. intros ->.
  assert (U : existsb (fun r => match r with Unusable => true | _ => false end) rs = true <-> In Unusable rs).
  { rewrite existsb_exists. split; [intros ([|l c] & X & Y); [exact X|discriminate]|]. intros X. exists Unusable. auto. }
  assert (F : Nat.eqb (List.length (failures tr)) 0 = true <-> failures tr = []) by (rewrite Nat.eqb_eq; apply length_zero_iff_nil).
  destruct (existsb _ rs); cbn [orb].
  { rewrite andb_false_r. apply ex_unread. left. now apply U. }
  assert (NU : ~ In Unusable rs) by (intros X; apply U in X; discriminate).
  destruct (Nat.eqb _ 0) eqn:EF; cbn [negb].
  2:{ rewrite andb_false_r. apply ex_unread. right. intros X. apply F in X. congruence. }
  assert (NF : failures tr = []) by now apply F.
  pose proof (flawed_exists (checks tr)) as K. destruct (existsb _ (checks tr)).
  { rewrite andb_false_r. apply ex_found; auto. now apply K. }
  assert (NK : ~ Exists flawed (checks tr)) by (intros X; apply K in X; discriminate).
  rewrite andb_true_r. pose proof (err_messages tr) as M. pose proof (no_err_messages tr) as M'. destruct (existsb is_err tr).
  - apply ex_error; auto. now apply M.
  - apply ex_clean; auto. now apply M'.
Qed.
Lemma session_ext fs cache mode paths rs names ds tr tr' : checks tr = checks tr' -> loads tr = loads tr' -> failures tr = failures tr' ->
  session E O fs cache mode paths rs names ds tr -> session E O fs cache mode paths rs names ds tr'.
Proof. intros A B C [S1 S2 S3 S4 S5 S6 S7 S8]. constructor; rewrite <- ?A, <- ?B, <- ?C; assumption. Qed.
(** everything shown so far about a run that did not stop early *)
Lemma mishap_ext fs paths e mode rs tr tr' : checks tr = checks tr' -> failures tr = failures tr' ->
  mishap E O fs paths e mode rs tr -> mishap E O fs paths e mode rs tr'.
Proof. intros A B H. destruct H; [eapply mh_path|eapply mh_read|eapply mh_global|eapply mh_beside|eapply mh_load|eapply mh_answer|eapply mh_update]; rewrite <- ?A, <- ?B; eauto. Qed.
Record full_run (fs : string -> fread) (cache : files) (l : list (string * string)) (e : bool) (tr : list ev) (code : Z) (s' : St) : Prop := mkFull {
  fr_session : exists mode rs names ds, session E O fs cache mode (map as_arg l) rs names ds tr /\ exits rs tr code
    /\ (mishap E O fs (map as_arg l) e mode rs tr -> messages KErr tr <> []);
  fr_results : s_results s' = if o_json O then map (fun c => RReport (ck_report c)) (checks tr) else [];
  fr_update : exists s0, s_files s0 = fs /\ writes (s_trace s0) = []
    /\ (if o_update O then write_updated_configs E O (seen_of (checks tr)) else ret tt) s0 = (Ok tt, s') }.
Hypothesis EO : EntriesOk E.
Hypothesis CH : checking O.
Lemma run_body_spec fs cache code s' : run_body E O (start fs cache) = (Ok code, s') ->
  let tr := s_trace s' in
  (idle tr /\ s_results s' = [] /\ s_files s' = fs /\ outcome E O fs cache tr code)
  \/ exists l e, known_as (o_parse_as O) /\ inputs E O l e /\ l <> [] /\ full_run fs cache l e tr code s'.
Proof.
  intros H tr. destruct CH as (C1 & C2 & C3).
  assert (G : grows (fun _ => True) (start fs cache) s').
  { assert (G : grows (fun _ => True) (start fs cache) (snd (run_body E O (start fs cache)))) by (apply run_body_grows; auto).
    now rewrite H in G. }
  assert (ER : s_errored s' = existsb is_err tr).
  { destruct G as [new T _ Er]. unfold tr. cbn in T, Er. now rewrite T. }
  unfold run_body in H. rewrite C1, C2 in H.
  pose proof (known_as_iff (o_parse_as O)) as KA. destruct (known_parse_as (o_parse_as O)); cbn [negb] in H.
  2:{ left. assert (EE : messages KErr tr <> []).
      { apply err_messages. rewrite <- ER. step H u0 s0 H0. eapply then_errored; [|exact H|eapply error_sets; exact H0]. mm. }
      repeat step_still H. injection H as <- ->.
      repeat match goal with K : still _ _ |- _ => apply still_steady in K end.
      assert (SS : steady (start fs cache) s') by (repeat first [assumption|eapply steady_trans; [eassumption|]]).
      destruct SS as (_ & F & R & n & T & I). cbn in T, F, R. unfold tr. rewrite T. split; [exact I|]. split; [exact R|]. split; [exact F|].
      rewrite <- T. apply oc_parser; [|now rewrite T|exact EE]. intros Q. apply KA in Q. discriminate. }
  assert (KN : known_as (o_parse_as O)) by now apply KA.
  step H x s1 Hf.
  assert (ST : steady (start fs cache) s1) by (apply still_steady; eapply keeps_at; [apply find_all_still|exact Hf]).
  assert (KF : same_cache (start fs cache) s1) by (eapply keeps_at; [apply K_find_all|exact Hf]).
  assert (IN : exists l e, inputs E O l e /\ x = (map as_arg l, e)).
  { destruct (string_dec (o_parse_as O) "csv-row") as [Q|Q].
    - exists [("csv-row", "-")], false. split; [now apply in_rows|]. unfold find_all_lockfiles, parse_as_csv_row in Hf. rewrite Q in Hf. cbn in Hf. now injection Hf as <- _.
    - destruct (find_all_spec E O SO EO (start fs cache) Q) as (l & e & s2 & F1 & F2 & _). rewrite F1 in Hf. injection Hf as <- _.
      exists l, e. split; [now apply in_found|reflexivity]. }
  destruct IN as (l & e & IN & ->).
  assert (EF : e = true -> s_errored s1 = true) by (intros ->; eapply find_all_errored; exact Hf). cbn [fst snd] in H. rewrite map_length in H.
  destruct l as [|q l].
  { cbn [List.length Nat.eqb] in H. left. assert (EE : messages KErr tr <> []) by (apply err_messages; rewrite <- ER; injection H as _ <-; reflexivity). step_still H. apply still_steady in K. pose proof (steady_trans _ _ _ ST K) as (_ & F & R & n & T & I).
    injection H as <- ->. cbn in T, F, R. unfold tr. rewrite T. split; [exact I|]. split; [exact R|]. split; [exact F|].
    replace (Nat.ltb 0 (List.length (o_args O)) && negb e) with (negb e && negb (Nat.eqb (List.length (o_args O)) 0)) by (destruct (o_args O), e; reflexivity).
    rewrite <- T. apply oc_nothing; auto. now rewrite T. }
  cbn [List.length Nat.eqb] in H. unfold run_config in H. rewrite C3 in H.
  assert (FR : forall mode cfg s2, steady (start fs cache) s2 \/ (exists h, s_heap s2 = h /\ s_files s2 = fs /\ s_results s2 = [] /\ idle (s_trace s2)) ->
     run_files E O (map as_arg (q :: l)) (mode_local mode) cfg s2 = (Ok code, s') -> same_cache (start fs cache) s2 -> mode_of E O fs mode ->
     (forall c, mode = Same c -> cfg < List.length (s_heap s2) /\ nth cfg (s_heap s2) empty_config = c) ->
     (e = true -> s_errored s2 = true) ->
     (forall c errs, mode <> Beside -> o_no_config O = false ->
        load_config (w_parse_uri (e_world E)) (e_dec_yaml E) fs (o_config O) = inr (c, errs) -> errs <> [] -> s_errored s2 = true) ->
     full_run fs cache (q :: l) e tr code s').
  { intros mode cfg s2 S2 Hr KS M HC He Hg.
    assert (Z : s_files s2 = fs /\ s_results s2 = [] /\ idle (s_trace s2)).
    { destruct S2 as [(_ & F & R & n & T & I)|(h & _ & F & R & I)]; [|auto]. cbn in F, R, T. rewrite T. auto. }
    destruct Z as (F2 & R2 & I2). rewrite <- F2 in M.
    destruct (run_files_spec cache mode _ cfg s2 code s' C3 ltac:(intros path; rewrite KS; apply ca_start) Hr M HC) as (n1 & n2 & s3 & rs & names & ds & T3 & T' & W1 & N1 & N2 & N3 & F3 & SS & RS & EX & UP & MH).
    destruct I2 as (I21 & I22 & I23 & I24).
    assert (CK : checks tr = checks n1) by (unfold tr; rewrite T', !checks_app, I21, N1, app_nil_r; reflexivity).
    assert (LK : loads tr = loads n1) by (unfold tr; rewrite T', !loads_app, I22, N2, app_nil_r; reflexivity).
    assert (FK : failures tr = failures n1) by (unfold tr; rewrite T', !failures_app, I23, N3, app_nil_r; reflexivity).
    constructor.
    - exists mode, rs, names, ds. split; [rewrite <- F2; eapply session_ext; [| | |exact SS]; congruence|].
      split; [apply exit_exits; unfold exit_code in *; rewrite CK, FK, <- ER; exact EX|].
      intros Q. apply err_messages. rewrite <- ER. eapply MH; [exact He|rewrite F2; exact Hg|]. rewrite F2. eapply mishap_ext; [exact CK|exact FK|exact Q].
    - rewrite RS, R2, CK. reflexivity.
    - exists s3. rewrite CK. split; [congruence|]. split; [|exact UP]. rewrite T3, writes_app, I24, W1. reflexivity. }
  destruct (o_no_config O) eqn:NC; cbn [negb andb] in H.
  - right. exists (q :: l), e. split; [exact KN|]. split; [exact IN|]. split; [discriminate|].
    step H cfg s2 Ha. unfold alloc in Ha. injection Ha as <- <-.
    eapply (FR (Same empty_config)); [|exact H|exact KF|now apply mo_none| |exact EF|intros; congruence].
    + right. eexists. split; [reflexivity|]. cbn. destruct ST as (_ & F & R & n & T & I). cbn in T, F, R. rewrite T. auto.
    + intros c Q. injection Q as <-. cbn. rewrite app_length, nth_middle. cbn. split; [lia|reflexivity].
  - destruct (seqb_spec (o_config O) "") as [Q|Q]; cbn [negb] in H.
    + right. exists (q :: l), e. split; [exact KN|]. split; [exact IN|]. split; [discriminate|].
      step H cfg s2 Ha. unfold alloc in Ha. injection Ha as <- <-.
      eapply (FR Beside); [|exact H|exact KF|now apply mo_beside|discriminate|exact EF|intros; congruence].
      right. eexists. split; [reflexivity|]. cbn. destruct ST as (_ & F & R & n & T & I). cbn in T, F, R. rewrite T. auto.
    + step H x s2 Hl. pose proof Hl as Hl0. apply load_cfg_spec in Hl as [K Hl].
      pose proof (steady_trans _ _ _ ST (still_steady _ _ K)) as ST2.
      assert (F1 : s_files s1 = fs) by (destruct ST as (_ & F & _); exact F). rewrite F1 in Hl.
      destruct (load_config _ _ fs _) as [er|[c errs]] eqn:LC; subst x.
      * left. assert (EE : messages KErr tr <> []) by (apply err_messages; rewrite <- ER; injection H as _ <-; reflexivity).
        step_still H. apply still_steady in K0. pose proof (steady_trans _ _ _ ST2 K0) as (_ & F & R & n & T & I).
        injection H as <- ->. cbn in T, F, R. unfold tr. rewrite T. split; [exact I|]. split; [exact R|]. split; [exact F|].
        rewrite <- T. eapply oc_config; eauto; [discriminate|now rewrite T].
      * right. exists (q :: l), e. split; [exact KN|]. split; [exact IN|]. split; [discriminate|].
        step H cfg s3 Ha. unfold alloc in Ha. injection Ha as <- <-.
        eapply (FR (Same c)); [|exact H|exact (same_cache_trans _ _ _ KF (keeps_at _ _ _ _ _ (K_load_cfg _) Hl0))|eapply mo_global; eauto| | |].
        -- right. eexists. split; [reflexivity|]. cbn. destruct ST2 as (_ & F & R & n & T & I). cbn in T, F, R. rewrite T. auto.
        -- intros c' Q'. injection Q' as <-. cbn. rewrite app_length, nth_middle. cbn. split; [lia|reflexivity].
        -- intros Q'. cbn. eapply then_errored; [apply M_load_cfg|exact Hl0|auto].
        -- intros c' errs' _ _ L' N'. cbn. eapply load_cfg_errored; [exact Hl0|rewrite F1, LC; exact L'|exact N'].
Qed.
End Run.
