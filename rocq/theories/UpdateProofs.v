(** --update-config-ignores: what is written, and what the next run makes of it. *)
From Verif Require Import GoStr GoStrFacts GoSort GoSortFacts Types Osv OsvSpec MemDB MemDBSpec MemDBProofs Path PathFacts Api ZipDB DirDB DbConfig Configer ConfigSpec ConfigProofs GoMap Lockfile LockfileSpec LockfileProofs Csv Ecosystems Report ReportSpec ReportProofs Json Main MainSpec MainTrace MainProofs DiscoverProofs Surface RunProofs RunFacts.

(** ** rows of a report *)
Lemma column_is i all c : column i all = Ok c -> c = found all i.
Proof.
  revert c. induction all as [|r all IH]; intros c H; cbn in H; [injection H as <-; reflexivity|].
  destruct (nth_error r i) as [vs|] eqn:N; [|discriminate]. destruct (column i all) as [rest|] eqn:C; [|discriminate]. cbn in H. injection H as <-.
  unfold found. cbn. rewrite (nth_error_nth r i [] N). f_equal. now apply IH.
Qed.
Lemma rows_ok pkgs ignores all : forall i rows, transpose_all pkgs ignores i all = Ok rows ->
  map pv_pkg rows = pkgs /\ forall j row, nth_error rows j = Some row -> divided ignores (unique (found all (i + j))) row.
Proof.
  induction pkgs as [|p ps IH]; intros i rows H; cbn [transpose_all] in H.
  - injection H as <-. split; [reflexivity|]. intros [|j] row Q; discriminate.
  - unfold transpose in H. destruct (column i all) as [c|] eqn:C; [|discriminate]. apply column_is in C. subst c. cbn [rbind] in H.
    destruct (fold_left (transpose_step ignores) (found all i) ([], [])) as [a b] eqn:F.
    destruct (transpose_all ps ignores (i + 1) all) as [xs|] eqn:T; [|discriminate]. cbn in H. injection H as <-.
    destruct (IH _ _ T) as [M R]. split; [cbn; now rewrite M|]. intros [|j] row Q; cbn in Q.
    + injection Q as <-. rewrite Nat.add_0_r. destruct (fold_divided ignores (found all i) (a, b) (eq_sym F)) as (k & D & S1 & S2).
      rewrite (dedup_fun _ _ _ (unique_dedup _) D). split; assumption.
    + replace (i + S j) with (i + 1 + j) by lia. now apply R.
Qed.
Lemma unrelated_unique k : ForallOrdPairs (fun a b => ~ related a b) k -> unique k = k.
Proof.
  induction k as [|v k IH] using rev_ind; intros F; [reflexivity|].
  assert (F1 : ForallOrdPairs (fun a b => ~ related a b) k /\ forall x, In x k -> ~ related x v).
  { clear IH. induction k as [|a k IHk]; [split; [constructor|intros x []]|].
    inversion F as [|? ? Fa Fb]; subst. destruct (IHk Fb) as [G1 G2]. apply Forall_app in Fa as [Fa Fv].
    split; [constructor; assumption|]. intros x [<-|Hx]; [now inversion Fv|auto]. }
  destruct F1 as [F1 F2]. rewrite unique_snoc, (IH F1).
  now rewrite (proj2 (includes_false k v) F2).
Qed.
Lemma selects_FOP {A} (R : A -> A -> Prop) (P : A -> Prop) l s : selects P l s -> ForallOrdPairs R l -> ForallOrdPairs R s.
Proof.
  induction 1 as [|x l s Px S IH|x l s Px S IH]; intros F; [constructor| |]; inversion F as [|? ? F1 F2]; subst; [|auto].
  constructor; [|auto]. rewrite Forall_forall in *. intros y Hy. apply F1. apply (selects_in _ _ _ y S) in Hy. tauto.
Qed.
Lemma listed_unique ignores vs row : divided ignores (unique vs) row -> unique (pv_vulns row) = pv_vulns row /\ unique (pv_ignored row) = pv_ignored row.
Proof.
  intros [S1 S2]. destruct (dedup_props _ _ (unique_dedup vs)) as (_ & D & _). split; apply unrelated_unique; eapply selects_FOP; eauto.
Qed.
(** every ID listed is one seen *)
Lemma seen_listed pkgs ignores all l rows i row v : transpose_all pkgs ignores 0 all = Ok rows -> nth_error rows i = Some row ->
  In v (unique (found all i)) -> In (o_id v) (seen_ids (mkRep l rows)).
Proof.
  intros T N I. apply rows_ok in T as [_ R]. specialize (R _ _ N). cbn in R. destruct (listed_unique _ _ _ R) as [U1 U2].
  unfold seen_ids. apply in_flat_map. exists row. split; [cbn; eapply nth_error_In; eauto|]. rewrite U1, U2. apply in_or_app.
  apply (divided_listed _ _ _ _ R) in I. unfold listed in I. apply in_app_or in I as [I|I]; [left|right]; now apply in_map.
Qed.
Lemma silenced pkgs ignores all rows i row : transpose_all pkgs ignores 0 all = Ok rows -> nth_error rows i = Some row ->
  (forall v, In v (unique (found all i)) -> In (o_id v) ignores) -> pv_vulns row = [].
Proof.
  intros T N I. apply rows_ok in T as [_ R]. destruct (R _ _ N) as [S1 _]. cbn in S1. destruct (pv_vulns row) as [|v vs]; [reflexivity|]. exfalso.
  assert (In v (v :: vs)) as V by now left. apply (selects_in _ _ _ v S1) in V as [V1 V2]. apply V2, I, V1.
Qed.

Section Run.
Variable E : Env.
Variable O : Opts.
Hypothesis SO : SorterOk (e_sort E).
Hypothesis IT : IterOk (e_iter E).
Notation dec := (e_dec_yaml E).
Notation enc := (e_enc_yaml E).
(** ** what is written *)
Definition new_text (v : list string) (raw : raw_config) : string := enc (mkRC (e_sort E _ str_ltb (e_iter E _ v)) (rc_dbs raw)).
Lemma update_all_spec l : NoDup (map fst l) -> (forall p v, In (p, v) l -> clean p = p) ->
  forall s ulines s', update_all E l s = (Ok ulines, s') ->
  (forall p, ~ In p (map fst l) -> s_files s' p = s_files s p)
  /\ (forall p v raw, In (p, v) l -> usable dec (s_files s p) raw -> e_openable E p = true ->
        s_files s' p = FOk (new_text v raw) /\ In (p, new_text v raw) (writes (s_trace s')))
  /\ (forall x, In x (writes (s_trace s)) -> In x (writes (s_trace s')))
  /\ (forall p c, In (p, c) (writes (s_trace s')) -> In (p, c) (writes (s_trace s)) \/
        exists v raw, In (p, v) l /\ usable dec (s_files s p) raw /\ c = new_text v raw).
Proof.
  induction l as [|[p v] l IH]; intros ND CL s lines s' H; cbn [update_all] in H.
  - injection H as _ <-. split; [reflexivity|]. split; [intros p v raw []|]. split; auto.
  - step H line s1 H1. step H rest s2 H2. injection H as _ <-. cbn in ND. inversion ND as [|? ? N1 N2]; subst.
    apply IH in H2 as (A & B & C & D); [|exact N2|intros q w Q; apply (CL q w); now right].
    assert (S1 : (forall q, q <> p -> s_files s1 q = s_files s q)
      /\ (forall raw, usable dec (s_files s p) raw -> e_openable E p = true -> s_files s1 p = FOk (new_text v raw) /\ In (p, new_text v raw) (writes (s_trace s1)))
      /\ (forall x, In x (writes (s_trace s)) -> In x (writes (s_trace s1)))
      /\ (forall q c, In (q, c) (writes (s_trace s1)) -> In (q, c) (writes (s_trace s)) \/ (q = p /\ exists raw, usable dec (s_files s p) raw /\ c = new_text v raw))).
    { assert (CP : clean p = p) by (apply (CL p v); now left).
      unfold update_one in H1. step H1 fs s3 H3. injection H3 as <- <-. step H1 u s3 H3. unfold emit in H3. injection H3 as _ <-.
      destruct (update_with_ignores _ _ _ _ _ _) as [e|content] eqn:U.
      - injection H1 as _ <-. cbn [s_files s_trace]. split; [reflexivity|]. split.
        + intros raw R Op. exfalso. assert (X : update_with_ignores dec enc (s_files s) (e_openable E) p (e_sort E _ str_ltb (e_iter E _ v)) = inr (new_text v raw)).
          { apply update_spec. exists raw. rewrite CP. auto. }
          congruence.
        + rewrite writes_app. cbn. rewrite app_nil_r. split; auto.
      - step H1 u4 s4 H4. unfold emit in H4. injection H4 as _ <-. step H1 u5 s5 H5. unfold set_files in H5. injection H5 as _ <-. injection H1 as _ <-.
        cbn [s_files s_trace]. rewrite CP. rewrite !writes_app. cbn [writes flat_map app]. rewrite app_nil_r.
        apply update_spec in U as (raw0 & R0 & Op0 & ->). rewrite CP in R0. split; [|split; [|split]].
        + intros q Q. now apply seqb_neq in Q as ->.
        + intros raw R _. rewrite seqb_refl. assert (raw = raw0) as -> by (destruct R as (x & X1 & X2), R0 as (y & Y1 & Y2); congruence).
          split; [reflexivity|]. apply in_or_app. right. now left.
        + intros x X. apply in_or_app. now left.
        + intros q c X. apply in_app_or in X as [X|[X|[]]]; [now left|]. injection X as <- <-. right. split; [reflexivity|]. exists raw0. auto. }
    destruct S1 as (F1 & G1 & K1 & D1). split; [|split; [|split]].
    + intros q Q. cbn in Q. rewrite A by tauto. apply F1. intros ->. tauto.
    + intros q w raw [Q|Q] R Op.
      * injection Q as -> ->. rewrite A by exact N1. destruct (G1 _ R Op) as [G2 G3]. split; [exact G2|]. now apply C.
      * apply B; [exact Q| |exact Op]. rewrite F1; [exact R|]. intros ->. apply N1. apply (in_map fst) in Q. exact Q.
    + auto.
    + intros q c X. apply D in X as [X|(w & raw & I & R & ->)].
      * apply D1 in X as [X|(-> & raw & R & ->)]; [now left|]. right. exists v, raw. split; [now left|auto].
      * right. exists w, raw. split; [now right|]. split; [|reflexivity]. rewrite F1 in R; [exact R|]. intros ->. apply N1. apply (in_map fst) in I. exact I.
Qed.
Lemma write_spec seen s s' : NoDup (map fst seen) -> (forall p v, In (p, v) seen -> clean p = p) ->
  write_updated_configs E O seen s = (Ok tt, s') ->
  (forall p, ~ In p (map fst seen) -> s_files s' p = s_files s p)
  /\ (forall p v raw, In (p, v) seen -> usable dec (s_files s p) raw -> e_openable E p = true ->
        s_files s' p = FOk (new_text v raw) /\ In (p, new_text v raw) (writes (s_trace s')))
  /\ (forall p c, In (p, c) (writes (s_trace s')) -> In (p, c) (writes (s_trace s)) \/
        exists v raw, In (p, v) seen /\ usable dec (s_files s p) raw /\ c = new_text v raw).
Proof.
  intros ND CL H. unfold write_updated_configs in H. step_still H. step H ulines s1 H1.
  pose proof (IT _ seen) as PM.
  apply update_all_spec in H1 as (A & B & _ & D); [|eapply Permutation_NoDup; [apply Permutation_map; exact PM|exact ND]|intros p v Q; apply (CL p v); eapply Permutation_in; [symmetry; exact PM|exact Q]].
  assert (K2 : still s1 s') by (eapply keeps_at; [|exact H]; ss).
  destruct K as [[n0 T0 Q0 Hh0 Hf0 Hr0] _], K2 as [[n2 T2 Q2 Hh2 Hf2 Hr2] _].
  destruct (quiet_none _ Q0) as (_ & _ & _ & W0). destruct (quiet_none _ Q2) as (_ & _ & _ & W2). rewrite Hf2, T2, writes_app, W2, app_nil_r.
  rewrite Hf0, T0, writes_app, W0, app_nil_r in *. split; [|split].
  - intros p N. apply A. intros Q. apply N. eapply Permutation_in; [symmetry; apply Permutation_map; exact PM|exact Q].
  - intros p v raw I. apply B. eapply Permutation_in; [exact PM|exact I].
  - intros p c X. apply D in X as [X|(v & raw & I & R & ->)]; [now left|]. right. exists v, raw. split; [eapply Permutation_in; [symmetry; exact PM|exact I]|auto].
Qed.

(** ** the checks of a run *)
Hypothesis EO : EntriesOk E.
Hypothesis CH : checking O.
Lemma full_checks fs cache l e tr code s' ck : full_run E O fs cache l e tr code s' -> In ck (checks tr) ->
  exists c, sourced dec fs c /\ ck_cfg ck = cf_path c /\ ck_ignores ck = ignores_of O c
    /\ transpose_all (lf_pkgs (rp_lock (ck_report ck))) (ck_ignores ck) 0 (ck_raw ck) = Ok (rp_pkgs (ck_report ck)).
Proof.
  intros [(mode & rs & names & ds & S & _) _ _] I. destruct S as [S1 S2 S3 S4 S5 S6 S7].
  apply In_nth_error in I as (n & N). destruct (Forall2_nth _ _ _ _ _ S7 N) as ([l0 c] & N' & k & c' & (P1 & P2 & _) & CO).
  apply nth_error_In in N'. exists c. split; [eapply usable_sourced; eauto|].
  destruct CO as [used ans rows _ _ T]. cbn. unfold ignores_of in *. rewrite P2 in *. auto.
Qed.
Lemma run_full fs cache code s' ck : run E O (start fs cache) = (Ok code, s') -> In ck (checks (s_trace s')) ->
  exists l e s1, full_run E O fs cache l e (s_trace s1) code s1 /\ checks (s_trace s1) = checks (s_trace s') /\ s_files s' = s_files s1
    /\ writes (s_trace s') = writes (s_trace s1).
Proof.
  intros H I. apply run_trace in H as (s1 & H & T & F). assert (CE : checks (s_trace s') = checks (s_trace s1)) by (rewrite T, checks_app, doc_checks; apply app_nil_r).
  apply (run_body_spec E O SO IT EO CH) in H. destruct H as [((ID & _) & _)|(l & e & _ & _ & _ & FR)].
  - rewrite CE, ID in I. destruct I.
  - exists l, e, s1. split; [exact FR|]. split; [auto|]. split; [exact F|]. rewrite T, writes_app, doc_writes. apply app_nil_r.
Qed.
Lemma seen_clean fs cache l e tr code s' p v : full_run E O fs cache l e tr code s' -> map_get p (seen_of O (checks tr)) = Some v ->
  clean p = p /\ exists raw, usable dec (fs p) raw.
Proof.
  intros FR G. apply seen_get in G as (NE & _ & (ck & I & <-) & _). destruct (full_checks _ _ _ _ _ _ _ _ FR I) as (c & [->|(_ & CP & raw & U & _)] & P & _).
  - now rewrite P in NE.
  - rewrite P. split; [exact CP|]. eauto.
Qed.
(** the files after an updating run *)
Lemma full_update fs cache l e tr code s' : full_run E O fs cache l e tr code s' -> o_update O = true -> tr = s_trace s' ->
  (forall p, (forall ck, In ck (checks tr) -> ck_cfg ck <> p) -> s_files s' p = fs p)
  /\ (forall ck, In ck (checks tr) -> ck_cfg ck <> "" -> e_openable E (ck_cfg ck) = true ->
      exists ids raw, usable dec (fs (ck_cfg ck)) raw /\ s_files s' (ck_cfg ck) = FOk (enc (mkRC ids (rc_dbs raw)))
        /\ In (ck_cfg ck, enc (mkRC ids (rc_dbs raw))) (writes tr)
        /\ StronglySorted (fun a b => a = b \/ str_lt a b) ids
        /\ forall id, In id ids <-> exists ck', In ck' (checks tr) /\ ck_cfg ck' = ck_cfg ck /\ In id (seen_ids (ck_report ck')))
  /\ (forall p c, In (p, c) (writes tr) -> exists ck, In ck (checks tr) /\ ck_cfg ck = p /\ p <> "").
Proof.
  intros FR U ->. pose proof FR as [_ _ (s0 & F0 & W0 & H)]. rewrite U in H.
  apply write_spec in H as (A & B & C); [|apply seen_nodup|].
  2:{ intros p v I. apply MemDBProofs.map_get_in in I; [|apply seen_nodup]. eapply seen_clean in I as [I _]; eauto. }
  rewrite F0 in *. split; [|split].
  - intros p N. apply A. intros I. apply map_get_in in I as (v & G). apply seen_get in G as (_ & _ & (ck & I & Q) & _). now apply (N ck).
  - intros ck I NE Op. destruct (seen_has O _ ck I U NE) as (v & G). destruct (seen_clean _ _ _ _ _ _ _ _ _ FR G) as (_ & raw & R).
    pose proof G as G'. apply MemDBProofs.map_get_in in G'; [|apply seen_nodup]. destruct (B _ _ _ G' R Op) as [B1 B2].
    exists (e_sort E _ str_ltb (e_iter E _ v)), raw. split; [exact R|]. split; [exact B1|]. split; [exact B2|].
    apply seen_get in G as (_ & _ & _ & G). split.
    + apply str_sorted. exact SO.
    + intros id. rewrite <- G. split; intros Q.
      * eapply Permutation_in; [symmetry; apply IT|]. eapply Permutation_in; [symmetry; apply (sorter_perm _ _ str_ltb _ SO)|exact Q].
      * eapply Permutation_in; [apply (sorter_perm _ _ str_ltb _ SO)|]. eapply Permutation_in; [apply IT|exact Q].
  - intros p c I. apply C in I as [I|(v & raw & I & _)]; [now rewrite W0 in I|]. apply MemDBProofs.map_get_in in I; [|apply seen_nodup].
    apply seen_get in I as (NE & _ & (ck & I & Q) & _). eauto.
Qed.
End Run.

Section Outcome.
Variable E : Env.
Variable O : Opts.
Hypothesis SO : SorterOk (e_sort E).
Hypothesis IT : IterOk (e_iter E).
Hypothesis EO : EntriesOk E.
Hypothesis CH : checking O.
Notation dec := (e_dec_yaml E).
Notation enc := (e_enc_yaml E).
Lemma run_update fs cache code s' : o_update O = true -> run E O (start fs cache) = (Ok code, s') ->
  let tr := s_trace s' in
  (forall p, (forall ck, In ck (checks tr) -> ck_cfg ck <> p) -> s_files s' p = fs p)
  /\ (forall ck, In ck (checks tr) -> ck_cfg ck <> "" -> e_openable E (ck_cfg ck) = true ->
      exists ids raw, usable dec (fs (ck_cfg ck)) raw /\ s_files s' (ck_cfg ck) = FOk (enc (mkRC ids (rc_dbs raw)))
        /\ In (ck_cfg ck, enc (mkRC ids (rc_dbs raw))) (writes tr)
        /\ StronglySorted (fun a b => a = b \/ str_lt a b) ids
        /\ forall id, In id ids <-> exists ck', In ck' (checks tr) /\ ck_cfg ck' = ck_cfg ck /\ In id (seen_ids (ck_report ck')))
  /\ (forall p c, In (p, c) (writes tr) -> exists ck, In ck (checks tr) /\ ck_cfg ck = p /\ p <> "").
Proof.
  intros U H tr. apply run_trace in H as (s1 & H & T & F).
  assert (CE : checks tr = checks (s_trace s1)) by (unfold tr; rewrite T, checks_app, doc_checks; apply app_nil_r).
  assert (WE : writes tr = writes (s_trace s1)) by (unfold tr; rewrite T, writes_app, doc_writes; apply app_nil_r).
  rewrite CE, WE, F. apply (run_body_spec E O SO IT EO CH) in H. destruct H as [((I1 & I2 & I3 & I4) & _ & -> & _)|(l & e & _ & _ & _ & FR)].
  - rewrite I1. split; [reflexivity|]. split; [intros ck []|]. intros p c I. rewrite I4 in I. destruct I.
  - exact (full_update E O SO IT fs cache l e _ code s1 FR U eq_refl).
Qed.
Lemma run_no_update fs cache code s' : o_update O = false -> run E O (start fs cache) = (Ok code, s') -> s_files s' = fs.
Proof.
  intros U H. apply run_trace in H as (s1 & H & T & F). rewrite F. apply (run_body_spec E O SO IT EO CH) in H.
  destruct H as [(_ & _ & -> & _)|(l & e & _ & _ & _ & [_ _ (s0 & F0 & _ & W)])]; [reflexivity|]. rewrite U in W. injection W as <-. exact F0.
Qed.
Lemma run_rows fs cache code s' ck : run E O (start fs cache) = (Ok code, s') -> In ck (checks (s_trace s')) ->
  exists c, sourced dec fs c /\ ck_cfg ck = cf_path c /\ ck_ignores ck = ignores_of O c
    /\ transpose_all (lf_pkgs (rp_lock (ck_report ck))) (ck_ignores ck) 0 (ck_raw ck) = Ok (rp_pkgs (ck_report ck)).
Proof.
  intros H I. destruct (run_full E O SO IT EO CH _ _ _ _ _ H I) as (l & e & s1 & FR & CE & _). rewrite <- CE in I. exact (full_checks _ _ _ _ _ _ _ _ _ _ FR I).
Qed.
End Outcome.

Lemma next_run E1 O1 E2 O2 fs c1 c2 r1 r2 s1 s2 :
  SorterOk (e_sort E1) -> IterOk (e_iter E1) -> EntriesOk E1 -> SorterOk (e_sort E2) -> IterOk (e_iter E2) -> EntriesOk E2 ->
  checking O1 -> o_update O1 = true -> checking O2 -> o_no_ignores O2 = false -> e_dec_yaml E2 = e_dec_yaml E1 ->
  run E1 O1 (start fs c1) = (Ok r1, s1) -> run E2 O2 (start (s_files s1) c2) = (Ok r2, s2) ->
  forall k1 k2, In k1 (checks (s_trace s1)) -> In k2 (checks (s_trace s2)) -> ck_cfg k2 = ck_cfg k1 -> ck_cfg k1 <> "" ->
  e_openable E1 (ck_cfg k1) = true ->
  (forall rc, In (ck_cfg k1, e_enc_yaml E1 rc) (writes (s_trace s1)) -> e_dec_yaml E1 (e_enc_yaml E1 rc) = Some rc) ->
  forall i j row1 row2, nth_error (rp_pkgs (ck_report k1)) i = Some row1 -> nth_error (rp_pkgs (ck_report k2)) j = Some row2 ->
  found (ck_raw k2) j = found (ck_raw k1) i -> pv_vulns row2 = [].
Proof.
  intros SO1 IT1 EO1 SO2 IT2 EO2 CH1 U1 CH2 NI YD H1 H2 k1 k2 I1 I2 CF NE OP YAML i j row1 row2 N1 N2 FD.
  destruct (run_update E1 O1 SO1 IT1 EO1 CH1 fs c1 r1 s1 U1 H1) as (_ & W & _). destruct (W k1 I1 NE OP) as (ids & raw & UR & SF & WR & _ & IDS).
  destruct (run_rows E2 O2 SO2 IT2 EO2 CH2 _ _ _ _ k2 H2 I2) as (c & SRC & CP & IG & T2).
  destruct (run_rows E1 O1 SO1 IT1 EO1 CH1 _ _ _ _ k1 H1 I1) as (c0 & _ & _ & _ & T1).
  destruct SRC as [->|(_ & _ & raw2 & (content & C1 & C2) & CI)]; [cbn in CP; congruence|].
  rewrite <- CP, CF, SF in C1. injection C1 as <-. rewrite YD, (YAML _ WR) in C2. injection C2 as <-. cbn in CI.
  eapply silenced; [exact T2|exact N2|]. intros v V. rewrite IG. unfold ignores_of. rewrite NI. apply in_or_app. left. rewrite CI. apply IDS.
  exists k1. split; [exact I1|]. split; [reflexivity|]. rewrite FD in V.
  replace (ck_report k1) with (mkRep (rp_lock (ck_report k1)) (rp_pkgs (ck_report k1))) by now destruct (ck_report k1).
  eapply seen_listed; eauto.
Qed.
(** a check whose counterpart got the same answers finds nothing *)
Lemma next_clean E1 O1 E2 O2 fs c1 c2 r1 r2 s1 s2 :
  SorterOk (e_sort E1) -> IterOk (e_iter E1) -> EntriesOk E1 -> SorterOk (e_sort E2) -> IterOk (e_iter E2) -> EntriesOk E2 ->
  checking O1 -> o_update O1 = true -> checking O2 -> o_no_ignores O2 = false -> e_dec_yaml E2 = e_dec_yaml E1 ->
  run E1 O1 (start fs c1) = (Ok r1, s1) -> run E2 O2 (start (s_files s1) c2) = (Ok r2, s2) ->
  forall k1 k2, In k1 (checks (s_trace s1)) -> In k2 (checks (s_trace s2)) -> ck_cfg k2 = ck_cfg k1 -> ck_cfg k1 <> "" ->
  e_openable E1 (ck_cfg k1) = true ->
  (forall rc, In (ck_cfg k1, e_enc_yaml E1 rc) (writes (s_trace s1)) -> e_dec_yaml E1 (e_enc_yaml E1 rc) = Some rc) ->
  lf_pkgs (rp_lock (ck_report k2)) = lf_pkgs (rp_lock (ck_report k1)) -> ck_raw k2 = ck_raw k1 -> ~ flawed k2.
Proof.
  intros SO1 IT1 EO1 SO2 IT2 EO2 CH1 U1 CH2 NI YD H1 H2 k1 k2 I1 I2 CF NE OP YAML PK RW F. apply F. clear F.
  destruct (run_rows E2 O2 SO2 IT2 EO2 CH2 _ _ _ _ k2 H2 I2) as (_ & _ & _ & _ & T2). apply rows_ok in T2 as [M2 _].
  destruct (run_rows E1 O1 SO1 IT1 EO1 CH1 _ _ _ _ k1 H1 I1) as (_ & _ & _ & _ & T1). apply rows_ok in T1 as [M1 _].
  unfold advisories. assert (forall row, In row (rp_pkgs (ck_report k2)) -> pv_vulns row = []) as V.
  { intros row R. apply In_nth_error in R as (j & N2).
    assert (L : List.length (rp_pkgs (ck_report k1)) = List.length (rp_pkgs (ck_report k2))).
    { rewrite <- (map_length pv_pkg (rp_pkgs (ck_report k1))), <- (map_length pv_pkg (rp_pkgs (ck_report k2))). congruence. }
    destruct (nth_error (rp_pkgs (ck_report k1)) j) as [row1|] eqn:N1.
    - eapply (next_run E1 O1 E2 O2 fs c1 c2 r1 r2 s1 s2) with (k1 := k1) (k2 := k2); eauto. now rewrite RW.
    - exfalso. apply nth_error_None in N1. assert (nth_error (rp_pkgs (ck_report k2)) j <> None) as X by congruence. apply nth_error_Some in X. lia. }
  clear - V. induction (rp_pkgs (ck_report k2)) as [|row rows IH]; [reflexivity|]. cbn. rewrite (V row (or_introl eq_refl)). cbn. apply IH. intros x X. apply V. now right.
Qed.
