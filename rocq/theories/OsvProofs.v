From Verif Require Import GoStr GoStrFacts GoSort GoSortFacts Regex RegexFacts Types Osv OsvSpec MemDBSpec.
Arguments pep_sep c : simpl never.
Arguments is_name_sep c : simpl never.

(** ** the event order is a strict weak order *)
Section Order.
Variable cmp : string -> string -> Z.
Hypothesis VO : VersionOrder cmp.
Local Open Scope Z_scope.

Lemma cmp_le_flip a b : cmp a b <= 0 <-> 0 <= cmp b a.
Proof.
  pose proof (vo_anti _ VO a b) as [H1 H2]. pose proof (vo_anti _ VO b a) as [H3 H4].
  split; intros; destruct (Z.lt_trichotomy (cmp a b) 0) as [|[|]]; destruct (Z.lt_trichotomy (cmp b a) 0) as [|[|]]; lia.
Qed.
Lemma cmp_eq_flip a b : cmp a b = 0 <-> cmp b a = 0.
Proof.
  pose proof (cmp_le_flip a b). pose proof (cmp_le_flip b a).
  pose proof (vo_anti _ VO a b). pose proof (vo_anti _ VO b a). lia.
Qed.
Lemma cmp_lt_flip a b : cmp a b < 0 <-> 0 < cmp b a.
Proof. apply (vo_anti _ VO). Qed.

Lemma cmp_lt_trans a b c : cmp a b < 0 -> cmp b c < 0 -> cmp a c < 0.
Proof.
  intros H1 H2.
  assert (cmp a c <= 0) by (apply (vo_trans _ VO) with b; lia).
  destruct (Z.eq_dec (cmp a c) 0) as [E|E]; [|lia].
  exfalso.
  assert (cmp c a <= 0) by (apply cmp_eq_flip in E; lia).
  assert (cmp b a <= 0) by (apply (vo_trans _ VO) with c; lia).
  apply cmp_lt_flip in H1. lia.
Qed.

Lemma cmp_nlt_trans a b c : 0 <= cmp a b -> 0 <= cmp b c -> 0 <= cmp a c.
Proof.
  intros H1 H2. apply cmp_le_flip in H1. apply cmp_le_flip in H2.
  apply cmp_le_flip. apply (vo_trans _ VO) with b; assumption.
Qed.
End Order.

Definition zero (e : Event) : bool := seqb (introduced e) "0".

Definition ev_lt (cmp : string -> string -> Z) (a b : Event) : bool :=
  if zero b then false else if zero a then true
  else Z.ltb (cmp (ev_version a) (ev_version b)) 0.

Lemma ev_lt_swo cmp : VersionOrder cmp -> SWO (ev_lt cmp).
Proof.
  intros VO. unfold ev_lt. split.
  - intros a. destruct (zero a); [reflexivity|]. rewrite (vo_refl _ VO). reflexivity.
  - intros a b c. destruct (zero a), (zero b), (zero c); try congruence.
    rewrite !Z.ltb_lt. now apply cmp_lt_trans.
  - intros a b c. destruct (zero a), (zero b), (zero c); try congruence.
    rewrite !Z.ltb_ge. now apply cmp_nlt_trans.
Qed.

Lemma no_zero_filter l e :
  List.length (filter zero l) = 0%nat -> In e l -> zero e = false.
Proof.
  intros H1 H2. destruct (zero e) eqn:E; [|reflexivity].
  assert (In e (filter zero l)) by (apply filter_In; auto).
  destruct (filter zero l); [destruct H|discriminate].
Qed.

Lemma ev_less_agrees sem eco es :
  one_zero es -> agrees (ev_less sem eco) (ev_lt (sem_cmp sem eco)) es.
Proof.
  unfold one_zero, agrees. change (fun e => seqb (introduced e) "0") with zero.
  assert (K : forall a b, zero a = false \/ zero b = false ->
            ev_less sem eco a b = ev_lt (sem_cmp sem eco) a b).
  { intros a b H. unfold ev_less, ev_lt. fold (zero a) (zero b).
    destruct (zero a), (zero b); try reflexivity. destruct H; discriminate. }
  induction es as [|e es IH]; intros H; constructor.
  - apply Forall_forall. intros x Hx.
    assert (Z : zero e = false \/ zero x = false).
    { destruct (zero e) eqn:E; [right|left; reflexivity].
      apply (no_zero_filter es); [|exact Hx].
      cbn [filter] in H. rewrite E in H. cbn [List.length] in H. lia. }
    split; apply K; tauto.
  - apply IH. cbn [filter] in H. destruct (zero e); cbn [List.length] in H; lia.
Qed.

(** ** the loop over sorted events *)
Section Loop.
Variable cmp : string -> string -> Z.
Variable sem : Semantic.
Variable pkg : Pkg.
Hypothesis Ecmp : sem_cmp sem (p_cmp pkg) = cmp.
Hypothesis VO : VersionOrder cmp.
Let v := p_version pkg.
Local Open Scope Z_scope.

Definition opens (e : Event) : Prop :=
  introduced e <> "" /\ (introduced e = "0" \/ cmp (introduced e) v <= 0).
Definition closes (e : Event) : Prop :=
  (fixed e <> "" /\ cmp (fixed e) v <= 0) \/ (last_affected e <> "" /\ cmp (last_affected e) v < 0).

Lemma step_true e : one_kind e -> (ev_step sem pkg true e = true <-> ~ closes e).
Proof.
  intros [K1 K2]. unfold ev_step, closes. rewrite Ecmp. fold v.
  destruct (seqb_spec (fixed e) "") as [Ef|Ef]; cbn [negb].
  - destruct (seqb_spec (last_affected e) "") as [El|El]; cbn [negb].
    + split; [intros _ [[? _]|[? _]]; contradiction|reflexivity].
    + rewrite orb_true_iff, seqb_eq, Z.leb_le.
      rewrite (cmp_le_flip cmp VO v (last_affected e)).
      split.
      * intros [E|E] [[? ?]|[? L]]; try contradiction; [|lia].
        rewrite E in L. rewrite (vo_refl _ VO) in L. lia.
      * intros N. right. destruct (Z.lt_ge_cases (cmp (last_affected e) v) 0); [|lia].
        exfalso. apply N. right. auto.
  - rewrite Z.ltb_lt.
    destruct K2 as [K2|K2]; [contradiction|].
    rewrite (cmp_lt_flip cmp VO).
    split.
    + intros H [[? L]|[L _]]; [lia|]. contradiction.
    + intros N. destruct (Z.le_gt_cases (cmp (fixed e) v) 0); [|lia].
      exfalso. apply N. left. auto.
Qed.

Lemma step_false e : ev_step sem pkg false e = true <-> opens e.
Proof.
  unfold ev_step, opens. rewrite Ecmp. fold v.
  destruct (seqb_spec (introduced e) "") as [Ei|Ei]; cbn [negb].
  - split; [discriminate|intros [? _]; contradiction].
  - rewrite orb_true_iff, seqb_eq, Z.geb_le. rewrite (cmp_le_flip cmp VO (introduced e) v).
    split; [intros H; split; [exact Ei|destruct H; [left|right]; auto; lia]|].
    intros [_ H]; destruct H; [left|right]; auto; lia.
Qed.

Lemma closes_not_opens e : one_kind e -> closes e -> ~ opens e.
Proof.
  intros [K1 K2] H [O _]. destruct K1 as [K1|[K1 K1']]; [contradiction|].
  destruct H as [[? _]|[? _]]; contradiction.
Qed.

Lemma loop_spec es : Forall one_kind es ->
  (fold_left (ev_step sem pkg) es false = true <->
   exists l1 e l2, es = l1 ++ e :: l2 /\ opens e /\ Forall (fun x => ~ closes x) l2).
Proof.
  induction es as [|x es IH] using rev_ind; intros K.
  - cbn. split; [discriminate|]. intros (l1 & e & l2 & E & _). destruct l1; discriminate.
  - apply Forall_app in K as [K Kx]. inversion Kx as [|? ? Kx' _]; subst.
    specialize (IH K). rewrite fold_left_app. cbn [fold_left].
    destruct (fold_left (ev_step sem pkg) es false).
    + rewrite (step_true x Kx'). destruct IH as [IH _].
      split.
      * intros N. destruct (IH eq_refl) as (l1 & e & l2 & -> & O & C).
        exists l1, e, (l2 ++ [x]). rewrite <- app_assoc. split; [reflexivity|].
        split; [exact O|]. apply Forall_app; auto.
      * intros (l1 & e & l2 & E & O & C) N.
        destruct l2 as [|y l2] using rev_ind.
        -- apply app_inj_tail in E as [-> ->]. eapply closes_not_opens; eauto.
        -- clear IHl2. rewrite app_comm_cons, app_assoc in E.
           apply app_inj_tail in E as [-> ->]. apply Forall_app in C as [_ C].
           inversion C; subst. contradiction.
    + rewrite step_false. destruct IH as [_ IH].
      split.
      * intros O. exists es, x, []. auto.
      * intros (l1 & e & l2 & E & O & C).
        destruct l2 as [|y l2] using rev_ind.
        -- apply app_inj_tail in E as [-> ->]. exact O.
        -- clear IHl2. rewrite app_comm_cons, app_assoc in E.
           apply app_inj_tail in E as [-> ->]. apply Forall_app in C as [C _].
           discriminate IH. exists l1, e, l2. auto.
Qed.

Lemma sorted_split {A} (R : A -> A -> Prop) l1 x l2 :
  StronglySorted R (l1 ++ x :: l2) -> Forall (fun a => R a x) l1 /\ Forall (R x) l2.
Proof.
  induction l1 as [|a l1 IH]; cbn; intros H; inversion H as [|? ? H1 H2]; subst.
  - split; [constructor|exact H2].
  - destruct (IH H1) as [I1 I2]. split; [|exact I2].
    constructor; [|exact I1]. apply Forall_app in H2 as [_ H2]. now inversion H2.
Qed.

Lemma bound_version e x : one_kind e -> x <> "" ->
  fixed e = x \/ last_affected e = x -> ev_version e = x /\ zero e = false.
Proof.
  intros [K1 K2] Hx H. unfold ev_version, zero.
  destruct K1 as [K1|[K1 K1']].
  - rewrite K1. cbn. split; [|reflexivity].
    destruct H as [H|H].
    + rewrite H. now destruct (seqb_spec x "").
    + destruct K2 as [K2|K2]; [|congruence]. rewrite K2, H. cbn. now destruct (seqb_spec x "").
  - destruct H; congruence.
Qed.

Lemma intro_version e : introduced e <> "" -> ev_version e = introduced e.
Proof. intros H. unfold ev_version. now destruct (seqb_spec (introduced e) ""). Qed.

Lemma loop_in_range es : wf_events cmp es -> sorted_by (ev_lt cmp) es ->
  (fold_left (ev_step sem pkg) es false = true <-> in_range cmp es v).
Proof.
  intros [K Z T] Hs. rewrite (loop_spec es K). unfold in_range.
  rewrite Forall_forall in K.
  split.
  - intros (l1 & e & l2 & E & [On Ov] & C).
    exists (introduced e).
    assert (He : In e es) by (rewrite E; apply in_or_app; right; left; reflexivity).
    split; [split; [exact On|eauto]|]. split; [exact Ov|].
    rewrite E in Hs. apply sorted_split in Hs as [S1 S2].
    rewrite Forall_forall in S1, C.
    assert (Main : forall x b, In x es -> b <> "" -> fixed x = b \/ last_affected x = b -> closes x ->
              introduced e <> "0" /\ cmp b (introduced e) < 0).
    { intros x b Hx Hb Hxb Hc.
      assert (Hx1 : In x l1).
      { rewrite E in Hx. apply in_app_or in Hx as [Hx|[Hx|Hx]]; [exact Hx| |].
        - subst x. exfalso. apply (closes_not_opens e (K e He) Hc). split; assumption.
        - exfalso. exact (C x Hx Hc). }
      specialize (S1 x Hx1). cbn in S1.
      destruct (bound_version x b (K x Hx) Hb Hxb) as [Ev Ez].
      unfold ev_lt in S1. rewrite Ez in S1.
      destruct (zero e) eqn:Eze; [discriminate|].
      unfold zero in Eze. apply seqb_neq in Eze. split; [exact Eze|].
      rewrite (intro_version e On), Ev in S1. apply Z.ltb_ge in S1.
      assert (cmp (introduced e) b <> 0).
      { apply T; auto. - split; eauto.
        - destruct Hxb as [Hxb|Hxb]; [left|right]; split; eauto. }
      apply (cmp_lt_flip cmp VO). lia. }
    split.
    + intros f [Hf (x & Hx & Hxf)] L. apply (Main x f Hx Hf (or_introl Hxf)).
      left. rewrite Hxf. auto.
    + intros f [Hf (x & Hx & Hxf)] L. apply (Main x f Hx Hf (or_intror Hxf)).
      right. rewrite Hxf. auto.
  - intros (i & [Hi (e & He & Hei)] & Ov & F & L).
    destruct (in_split _ _ He) as (l1 & l2 & E).
    exists l1, e, l2. split; [exact E|].
    split; [split; rewrite Hei; assumption|].
    apply Forall_forall. intros x Hx Hc.
    rewrite E in Hs. apply sorted_split in Hs as [_ S2].
    rewrite Forall_forall in S2. specialize (S2 x Hx). cbn in S2.
    assert (Hx' : In x es) by (rewrite E; apply in_or_app; right; right; exact Hx).
    assert (Main : forall b, b <> "" -> fixed x = b \/ last_affected x = b ->
              i <> "0" -> cmp b i < 0 -> False).
    { intros b Hb Hxb Hi0 Hlt.
      destruct (bound_version x b (K x Hx') Hb Hxb) as [Ev Ez].
      unfold ev_lt in S2. rewrite Ez in S2.
      assert (Eze : zero e = false) by (unfold zero; rewrite Hei; now apply seqb_neq).
      rewrite Eze in S2. rewrite (intro_version e) in S2 by (rewrite Hei; exact Hi).
      rewrite Hei, Ev in S2. apply Z.ltb_ge in S2. lia. }
    destruct Hc as [[H1 H2]|[H1 H2]].
    + destruct (F (fixed x)) as [G1 G2]; [split; eauto|exact H2|].
      exact (Main (fixed x) H1 (or_introl eq_refl) G1 G2).
    + destruct (L (last_affected x)) as [G1 G2]; [split; eauto|exact H2|].
      exact (Main (last_affected x) H1 (or_intror eq_refl) G1 G2).
Qed.
End Loop.

(** ** permutation invariance of the specification *)
Lemma introduces_perm es es' i : Permutation es es' -> introduces es i -> introduces es' i.
Proof. intros P [H (e & He & E)]. split; [exact H|]. exists e. split; [|exact E]. now apply (Permutation_in _ P). Qed.
Lemma fixes_perm es es' i : Permutation es es' -> fixes es i -> fixes es' i.
Proof. intros P [H (e & He & E)]. split; [exact H|]. exists e. split; [|exact E]. now apply (Permutation_in _ P). Qed.
Lemma ends_at_perm es es' i : Permutation es es' -> ends_at es i -> ends_at es' i.
Proof. intros P [H (e & He & E)]. split; [exact H|]. exists e. split; [|exact E]. now apply (Permutation_in _ P). Qed.

Lemma in_range_perm cmp es es' v : Permutation es es' -> in_range cmp es v -> in_range cmp es' v.
Proof.
  intros P (i & H1 & H2 & H3 & H4). exists i.
  split; [now apply (introduces_perm _ _ _ P)|]. split; [exact H2|].
  apply Permutation_sym in P.
  split; intros x Hx; [apply H3|apply H4]; [now apply (fixes_perm _ _ _ P)|now apply (ends_at_perm _ _ _ P)].
Qed.

Lemma filter_perm_len {A} (f : A -> bool) l l' :
  Permutation l l' -> List.length (filter f l) = List.length (filter f l').
Proof.
  intros P. induction P; cbn; try congruence.
  - destruct (f x); cbn; congruence.
  - destruct (f x), (f y); cbn; congruence.
Qed.

Lemma wf_events_perm cmp es es' : Permutation es es' -> wf_events cmp es -> wf_events cmp es'.
Proof.
  intros P [K Z T]. split.
  - now apply (Forall_perm _ _ _ P).
  - unfold one_zero in *. now rewrite <- (filter_perm_len _ _ _ P).
  - apply Permutation_sym in P. intros i x Hi H0 [Hx|Hx]; apply T; auto.
    + now apply (introduces_perm _ _ _ P).
    + left. now apply (fixes_perm _ _ _ P).
    + now apply (introduces_perm _ _ _ P).
    + right. now apply (ends_at_perm _ _ _ P).
Qed.

Lemma parseable_perm sem eco es es' : Permutation es es' -> parseable sem eco es -> parseable sem eco es'.
Proof. intros P H e v He. apply H. apply Permutation_sym in P. now apply (Permutation_in _ P). Qed.

Lemma parseable_no_sort_panic S sem eco es : parseable sem eco es -> sort_panics S sem eco es = false.
Proof.
  intros H. unfold sort_panics. apply not_true_iff_false. intros E. apply existsb_exists in E as ((i, j) & _ & E).
  destruct (nth_error es i) as [e|] eqn:Ei; [|discriminate]. destruct (nth_error es j) as [e'|]; [|discriminate]. apply nth_error_In in Ei as He.
  unfold less_panics in E. apply andb_prop in E as [_ E].
  rewrite (H e (ev_version e) He) in E; [discriminate|].
  unfold ev_version, event_versions. cbn [filter].
  destruct (seqb_spec (introduced e) "") as [E1|E1]; cbn [negb];
  [|left; left; reflexivity].
  destruct (seqb_spec (fixed e) "") as [E2|E2]; cbn [negb];
  [|left; left; reflexivity].
  destruct (seqb_spec (last_affected e) "") as [E3|E3]; cbn [negb];
  [right; split; reflexivity|left; left; reflexivity].
Qed.

(** ** containsVersion *)
Lemma version_typed_iff r :
  negb (seqb (r_type r) TypeEcosystem) && negb (seqb (r_type r) TypeSemver) = false <-> version_typed r.
Proof.
  unfold version_typed, TypeEcosystem, TypeSemver.
  destruct (seqb_spec (r_type r) "ECOSYSTEM"), (seqb_spec (r_type r) "SEMVER"); cbn; split; auto;
    intros; try discriminate; destruct H; contradiction.
Qed.

Lemma in_range_nil cmp v : ~ in_range cmp [] v.
Proof. intros (i & [_ (e & [] & _)] & _). Qed.

Lemma contains_version_spec S sem r pkg :
  SorterOk S -> VersionOrder (sem_cmp sem (p_cmp pkg)) ->
  version_typed r -> wf_range sem (p_cmp pkg) r -> sem_ok sem (p_cmp pkg) (p_version pkg) = true ->
  exists b r', contains_version S sem r pkg = Ok (b, r')
    /\ range_same r r'
    /\ (b = true <-> in_range (sem_cmp sem (p_cmp pkg)) (r_events r) (p_version pkg)).
Proof.
  intros HS VO Ht [Hw Hp] Hok. unfold contains_version.
  apply version_typed_iff in Ht. rewrite Ht.
  destruct (Nat.eqb_spec (List.length (r_events r)) 0) as [E|E].
  - exists false, r. split; [reflexivity|]. split; [split; [reflexivity|apply Permutation_refl]|].
    destruct (r_events r); [|discriminate]. split; [discriminate|].
    intros H. now apply in_range_nil in H.
  - rewrite Hok. cbn [negb]. rewrite (parseable_no_sort_panic _ _ _ _ Hp).
    eexists _, _. split; [reflexivity|].
    pose proof (HS Event (ev_less sem (p_cmp pkg)) (r_events r)) as [P So].
    split; [split; [reflexivity|exact P]|].
    assert (So' := So _ (ev_lt_swo _ VO) (ev_less_agrees sem (p_cmp pkg) _ (we_zero _ _ Hw))).
    rewrite (loop_in_range _ sem pkg eq_refl VO _ (wf_events_perm _ _ _ P Hw) So').
    split; apply in_range_perm; [now apply Permutation_sym|exact P].
Qed.

Lemma contains_version_frame S sem r pkg b r' :
  SorterOk S -> contains_version S sem r pkg = Ok (b, r') -> range_same r r'.
Proof.
  intros HS H. unfold contains_version in H.
  destruct (negb _ && negb _). { injection H as <- <-. split; [reflexivity|apply Permutation_refl]. }
  destruct (Nat.eqb _ 0). { injection H as <- <-. split; [reflexivity|apply Permutation_refl]. }
  destruct (negb _); [discriminate|]. destruct (sort_panics _ _ _ _); [discriminate|].
  injection H as <- <-. split; [reflexivity|]. cbn. now apply sorter_perm.
Qed.

(** ** affectsVersion *)
Lemma range_same_refl r : range_same r r.
Proof. split; [reflexivity|apply Permutation_refl]. Qed.
Lemma ranges_same_refl rs : Forall2 range_same rs rs.
Proof. induction rs; constructor; auto using range_same_refl. Qed.

Lemma ranges_cover_nil cmp v : ~ ranges_cover cmp [] v.
Proof. intros (b & r & a & E & _). destruct b; discriminate. Qed.

Lemma ranges_cover_cons cmp r rs v :
  ranges_cover cmp (r :: rs) v <->
  version_typed r /\ (in_range cmp (r_events r) v \/ ranges_cover cmp rs v).
Proof.
  split.
  - intros (b & r0 & a & E & H1 & H2 & H3). destruct b as [|x b]; cbn in E; injection E as -> ->.
    + auto.
    + inversion H1; subst. split; [assumption|]. right. exists b, r0, a. auto.
  - intros [H [H1|(b & r0 & a & -> & H1 & H2 & H3)]].
    + exists [], r, rs. auto.
    + exists (r :: b), r0, a. auto.
Qed.

Lemma affects_version_spec S sem rs pkg :
  SorterOk S -> VersionOrder (sem_cmp sem (p_cmp pkg)) ->
  Forall (wf_range sem (p_cmp pkg)) rs -> sem_ok sem (p_cmp pkg) (p_version pkg) = true ->
  exists b rs', affects_version S sem rs pkg = Ok (b, rs')
    /\ Forall2 range_same rs rs'
    /\ (b = true <-> ranges_cover (sem_cmp sem (p_cmp pkg)) rs (p_version pkg)).
Proof.
  intros HS VO Hw Hok. induction Hw as [|r rs Hr Hw IH]; cbn [affects_version].
  - exists false, []. split; [reflexivity|]. split; [constructor|].
    split; [discriminate|]. intros H; now apply ranges_cover_nil in H.
  - destruct (negb (seqb (r_type r) TypeEcosystem) && negb (seqb (r_type r) TypeSemver)) eqn:Et.
    + exists false, (r :: rs). split; [reflexivity|]. split; [apply ranges_same_refl|].
      split; [discriminate|]. rewrite ranges_cover_cons, <- version_typed_iff. intros [H _]. congruence.
    + apply version_typed_iff in Et.
      destruct (contains_version_spec S sem r pkg HS VO Et Hr Hok) as (b & r' & -> & Hs & Hb).
      cbn [rbind].
      destruct b.
      * exists true, (r' :: rs). split; [reflexivity|].
        split; [constructor; [exact Hs|apply ranges_same_refl]|]. rewrite ranges_cover_cons. tauto.
      * destruct IH as (b & rs' & -> & Hs' & Hb'). cbn [rbind].
        exists b, (r' :: rs'). split; [reflexivity|]. split; [constructor; assumption|].
        rewrite Hb', ranges_cover_cons. assert (~ in_range (sem_cmp sem (p_cmp pkg)) (r_events r) (p_version pkg))
          by (intros C; apply Hb in C; discriminate). tauto.
Qed.

(** ** ecosystems and names *)
Lemma eco_parts_cut e : eco_parts e (cut_before e ":") (cut_after e ":").
Proof.
  unfold eco_parts, cut_before, cut_after, cut.
  destruct (cut_at ":" e) as [[b a]|] eqn:E; cbn.
  - left. apply cut_at_char in E as [E1 E2]. split; [exact E2|exact E1].
  - right. apply cut_at_char_none in E. auto.
Qed.

Lemma eco_parts_fun e b s b' s' : eco_parts e b s -> eco_parts e b' s' -> b = b' /\ s = s'.
Proof.
  assert (K : forall b s, eco_parts e b s -> cut e ":" = (b, s, if has_char ":" e then true else false)).
  { intros b0 s0 [[H1 ->]|[H1 [-> ->]]].
    - rewrite has_char_app. cbn. rewrite orb_true_r. now apply cut_char_found.
    - rewrite H1. now apply cut_char_absent. }
  intros H1 H2. apply K in H1. apply K in H2. rewrite H1 in H2. now inversion H2.
Qed.

Lemma ecosystems_equal_spec a b : ecosystems_equal a b = true <-> same_ecosystem a b.
Proof.
  unfold ecosystems_equal, same_ecosystem.
  pose proof (eco_parts_cut a) as Ha. pose proof (eco_parts_cut b) as Hb.
  set (ba := cut_before a ":") in *. set (sa := cut_after a ":") in *.
  set (bb := cut_before b ":") in *. set (sb := cut_after b ":") in *.
  split.
  - intros H. exists ba, sa, bb, sb. split; [exact Ha|]. split; [exact Hb|].
    destruct (seqb_spec sa ""); cbn in H; [apply seqb_eq in H; auto|].
    destruct (seqb_spec sb ""); cbn in H; [apply seqb_eq in H; auto|].
    apply andb_prop in H as [H1 H2]. apply seqb_eq in H1, H2. auto.
  - intros (ba' & sa' & bb' & sb' & H1 & H2 & H3 & H4).
    destruct (eco_parts_fun _ _ _ _ _ Ha H1) as [<- <-].
    destruct (eco_parts_fun _ _ _ _ _ Hb H2) as [<- <-].
    rewrite (proj2 (seqb_eq ba bb) H3).
    destruct (seqb_spec sa ""), (seqb_spec sb ""); cbn; auto.
    destruct H4 as [H4|[H4|H4]]; try contradiction. now apply seqb_eq.
Qed.

Lemma is_name_sep_pep c : is_name_sep c = pep_sep c.
Proof. destruct c as [[] [] [] [] [] [] [] []]; reflexivity. Qed.

Lemma collapse_true_run p a b :
  (forall c, p c = pep_sep c) -> str_forall p a = true -> collapse true (a +s+ b) = collapse true b.
Proof.
  intros Hp. induction a as [|c a IH]; cbn; intros H; [reflexivity|].
  apply andb_prop in H as [H1 H2]. rewrite <- Hp, H1. now apply IH.
Qed.
Lemma collapse_stop b : (forall c t, b = String c t -> pep_sep c = false) -> collapse true b = collapse false b.
Proof. intros H. destruct b as [|c t]; cbn; [reflexivity|]. now rewrite (H c t eq_refl). Qed.

Lemma find_seps_none s bot : str_forall (fun c => negb (is_name_sep c)) s = true ->
  find_at bot re_name_seps s = None.
Proof.
  revert bot. induction s as [|c t IH]; intros bot H; [reflexivity|].
  cbn in H. apply andb_prop in H as [H1 H2]. apply negb_true_iff in H1.
  rewrite find_at_skip.
  - now rewrite IH.
  - unfold re_name_seps. rewrite ms_plus_cls_g. now rewrite H1.
Qed.

Lemma find_seps_some a c t bot : str_forall (fun c => negb (is_name_sep c)) a = true ->
  is_name_sep c = true ->
  exists txt, find_at bot re_name_seps (a +s+ String c t) =
    Some (mkm a txt (snd (span is_name_sep t)) []).
Proof.
  revert bot. induction a as [|d a IH]; intros bot H Hc.
  - cbn [String.append]. destruct (runs_hd is_name_sep t) as [l Hl].
    eexists. rewrite (find_at_here _ _ _ (mkst false (snd (span is_name_sep t)) [])
      (map (fun r => mkst false r []) l)).
    + cbn. reflexivity.
    + unfold re_name_seps. rewrite ms_plus_cls_g, Hc, Hl. reflexivity.
  - cbn in H. apply andb_prop in H as [H1 H2]. apply negb_true_iff in H1.
    destruct (IH false H2 Hc) as [txt E]. exists txt.
    cbn [String.append]. rewrite find_at_skip.
    + rewrite E. reflexivity.
    + unfold re_name_seps. rewrite ms_plus_cls_g. now rewrite H1.
Qed.

Lemma collapse_nosep s : str_forall (fun c => negb (is_name_sep c)) s = true -> forall b, collapse b s = s.
Proof.
  induction s as [|c t IH]; cbn; intros H b; [reflexivity|].
  apply andb_prop in H as [H1 H2]. rewrite <- is_name_sep_pep.
  apply negb_true_iff in H1. rewrite H1. now rewrite IH.
Qed.

Lemma collapse_app_nosep a b : str_forall (fun c => negb (is_name_sep c)) a = true ->
  collapse false (a +s+ b) = a +s+ collapse false b.
Proof.
  induction a as [|c a IH]; cbn; intros H; [reflexivity|].
  apply andb_prop in H as [H1 H2]. rewrite <- is_name_sep_pep.
  apply negb_true_iff in H1. rewrite H1. now rewrite IH.
Qed.

Lemma replace_seps fuel : forall s bot, String.length s < fuel ->
  replace_fuel fuel bot re_name_seps "-" s = collapse false s.
Proof.
  induction fuel as [|fuel IH]; intros s bot Hl; [lia|].
  pose proof (span_app (fun c => negb (is_name_sep c)) s) as Es.
  pose proof (span_forall (fun c => negb (is_name_sep c)) s) as Fs.
  pose proof (span_stop (fun c => negb (is_name_sep c)) s) as Ss.
  destruct (span (fun c => negb (is_name_sep c)) s) as [a b]. cbn in Es, Fs, Ss.
  cbn [replace_fuel]. destruct b as [|c t].
  - rewrite sapp_nil_r in Es. subst a. rewrite find_seps_none by exact Fs.
    symmetry. now apply collapse_nosep.
  - specialize (Ss c t eq_refl). apply negb_false_iff in Ss. subst s.
    destruct (find_seps_some a c t bot Fs Ss) as [txt E]. rewrite E.
    cbn [m_before m_after]. rewrite collapse_app_nosep by exact Fs.
    cbn [collapse String.append]. rewrite <- is_name_sep_pep, Ss.
    f_equal. f_equal.
    pose proof (span_app is_name_sep t) as Et. pose proof (span_forall is_name_sep t) as Ft.
    pose proof (span_stop is_name_sep t) as St.
    destruct (span is_name_sep t) as [x y]. cbn in *. subst t.
    rewrite (collapse_true_run is_name_sep) by (auto using is_name_sep_pep).
    rewrite collapse_stop by (intros c0 t0 H0; rewrite <- is_name_sep_pep; eauto).
    apply IH. rewrite slen_app in Hl. cbn in Hl. rewrite slen_app in Hl. lia.
Qed.

Lemma replace_all_seps s : replace_all re_name_seps "-" s = collapse false s.
Proof. apply replace_seps. lia. Qed.

Lemma normalized_name_spec p : match_name p (normalized_name p).
Proof.
  unfold match_name, normalized_name, normalized_ecosystem.
  exists (cut_before (op_eco p) ":"), (cut_after (op_eco p) ":"). split; [apply eco_parts_cut|].
  destruct (seqb_spec (cut_before (op_eco p) ":") PipEcosystem) as [E|E]; cbn [negb].
  - left. split; [exact E|]. unfold pep503. now rewrite replace_all_seps.
  - right. auto.
Qed.

Lemma match_name_fun p n : match_name p n <-> n = normalized_name p.
Proof.
  split; [|intros ->; apply normalized_name_spec].
  intros (b & s & H1 & H2). destruct (normalized_name_spec p) as (b' & s' & H1' & H2').
  destruct (eco_parts_fun _ _ _ _ _ H1 H1') as [<- <-].
  destruct H2 as [[E1 E2]|[E1 E2]], H2' as [[F1 F2]|[F1 F2]]; congruence.
Qed.

(** ** IsAffected *)
Lemma affected_same_refl a : affected_same a a.
Proof. repeat split; auto using ranges_same_refl. Qed.
Lemma affecteds_same_refl l : Forall2 affected_same l l.
Proof. induction l; constructor; auto using affected_same_refl. Qed.

Lemma affected_loop_spec S sem l pkg :
  SorterOk S -> VersionOrder (sem_cmp sem (p_cmp pkg)) ->
  (forall a r, In a l -> In r (a_ranges a) -> wf_range sem (p_cmp pkg) r) ->
  sem_ok sem (p_cmp pkg) (p_version pkg) = true ->
  exists b l', affected_loop S sem l pkg = Ok (b, l')
    /\ Forall2 affected_same l l'
    /\ (b = true <-> exists a, In a l /\ entry_affects sem a pkg).
Proof.
  intros HS VO Hw Hok. induction l as [|a l IH]; cbn [affected_loop].
  - exists false, []. split; [reflexivity|]. split; [constructor|].
    split; [discriminate|]. intros (x & [] & _).
  - destruct IH as (b & l' & El & Hs & Hb). { intros x r Hx. apply Hw. now right. }
    rewrite El. cbn [rbind].
    assert (Skip : forall a', affected_same a a' -> ~ entry_affects sem a pkg ->
      exists b0 l0, Ok (b, a' :: l') = Ok (b0, l0) /\ Forall2 affected_same (a :: l) l0 /\
        (b0 = true <-> exists x, In x (a :: l) /\ entry_affects sem x pkg)).
    { intros a' Ha' N. exists b, (a' :: l'). split; [reflexivity|].
      split; [constructor; assumption|]. rewrite Hb. split.
      - intros (x & Hx & Ex). exists x. split; [now right|exact Ex].
      - intros (x & [<-|Hx] & Ex); [contradiction|]. eauto. }
    assert (Hit : forall a', affected_same a a' -> entry_affects sem a pkg ->
      exists b0 l0, Ok (true, a' :: l) = Ok (b0, l0) /\ Forall2 affected_same (a :: l) l0 /\
        (b0 = true <-> exists x, In x (a :: l) /\ entry_affects sem x pkg)).
    { intros a' Ha' Y. exists true, (a' :: l). split; [reflexivity|].
      split; [constructor; [assumption|apply affecteds_same_refl]|].
      split; [intros _; exists a; split; [now left|exact Y]|reflexivity]. }
    destruct (ecosystems_equal (op_eco (a_pkg a)) (p_eco pkg)
         && seqb (normalized_name (a_pkg a)) (p_name pkg)) eqn:Em.
    + apply andb_prop in Em as [Ee En]. apply ecosystems_equal_spec in Ee.
      apply seqb_eq in En. symmetry in En. apply match_name_fun in En.
      destruct (Nat.eqb (List.length (a_ranges a)) 0 && Nat.eqb (List.length (a_versions a)) 0) eqn:E0.
      * apply andb_prop in E0 as [E1 E2]. apply Nat.eqb_eq in E1, E2.
        apply Skip; [apply affected_same_refl|].
        intros (_ & _ & [N|N] & _); [destruct (a_ranges a)|destruct (a_versions a)]; try discriminate; contradiction.
      * assert (Nonempty : a_ranges a <> [] \/ a_versions a <> []).
        { destruct (a_ranges a); [|left; discriminate].
          destruct (a_versions a); [discriminate|right; discriminate]. }
        destruct (mem (p_version pkg) (a_versions a)) eqn:Ev.
        { apply mem_iff in Ev. apply Hit; [apply affected_same_refl|].
          split; [exact Ee|]. split; [exact En|]. auto. }
        apply mem_false in Ev.
        destruct (affects_version_spec S sem (a_ranges a) pkg HS VO) as (b0 & rs & Er & Hrs & Hb0); [|exact Hok|].
        { apply Forall_forall. intros r Hr. apply (Hw a); [now left|exact Hr]. }
        rewrite Er. cbn [rbind].
        assert (Same : affected_same a (mkAff (a_pkg a) (a_versions a) rs)) by (repeat split; auto).
        destruct b0.
        { apply Hit; [exact Same|]. split; [exact Ee|]. split; [exact En|]. split; [exact Nonempty|].
          right. right. now apply Hb0. }
        destruct (seqb_spec (p_version pkg) "") as [E|E].
        { apply Hit; [exact Same|]. split; [exact Ee|]. split; [exact En|]. auto. }
        apply Skip; [exact Same|]. intros (_ & _ & _ & [N|[N|N]]); try contradiction.
        apply Hb0 in N. discriminate.
    + apply Skip; [apply affected_same_refl|]. intros (H1 & H2 & _).
      apply ecosystems_equal_spec in H1. apply match_name_fun in H2. rewrite H2 in Em.
      rewrite H1, seqb_refl in Em. discriminate.
Qed.

Lemma is_affected_spec S sem o pkg :
  SorterOk S -> VersionOrder (sem_cmp sem (p_cmp pkg)) ->
  wf_osv sem (p_cmp pkg) o -> sem_ok sem (p_cmp pkg) (p_version pkg) = true ->
  exists b o', is_affected S sem o pkg = Ok (b, o')
    /\ osv_same o o' /\ (b = true <-> osv_affects sem o pkg).
Proof.
  intros HS VO Hw Hok. unfold is_affected.
  destruct (affected_loop_spec S sem (o_affected o) pkg HS VO Hw Hok) as (b & l & -> & H1 & H2).
  cbn [rbind]. eexists b, _. split; [reflexivity|]. split; [|exact H2].
  constructor; try reflexivity. exact H1.
Qed.

(** ** PEP 503 normalisation *)
Lemma lower_char_pep c : pep_sep (lower_char c) = pep_sep c.
Proof. destruct c as [[] [] [] [] [] [] [] []]; reflexivity. Qed.
Lemma pep_dash : pep_sep "-" = true. Proof. reflexivity. Qed.
Lemma lower_dash c : pep_sep c = true -> pep_sep (lower_char c) = true.
Proof. now rewrite lower_char_pep. Qed.

Lemma collapse_lower b s : collapse b (str_map lower_char s) = str_map lower_char (collapse b s).
Proof.
  revert b. induction s as [|c t IH]; intros b; cbn; [reflexivity|].
  rewrite lower_char_pep. destruct (pep_sep c); [destruct b|]; cbn; now rewrite IH.
Qed.
Lemma collapse_idem b s : collapse b (collapse b s) = collapse b s.
Proof.
  revert b. induction s as [|c t IH]; intros b; cbn; [reflexivity|].
  destruct (pep_sep c) eqn:E; [destruct b|]; cbn.
  - apply IH.
  - rewrite pep_dash. now rewrite IH.
  - rewrite E. now rewrite IH.
Qed.
Lemma pep503_idem s : pep503 (pep503 s) = pep503 s.
Proof.
  unfold pep503. rewrite collapse_lower, collapse_idem.
  change (str_map lower_char (str_map lower_char (collapse false s))) with (to_lower (to_lower (collapse false s))).
  now rewrite to_lower_idem.
Qed.

(** a separate description of the result: only lower-case letters, and
    separators only as single dashes *)
Fixpoint no_double_sep (s : string) : bool :=
  match s with
  | String a (String b _ as t) => negb (pep_sep a && pep_sep b) && no_double_sep t
  | _ => true
  end.
Lemma collapse_shape s : forall b, no_double_sep (collapse b s) = true
  /\ str_forall (fun c => negb (Ascii.eqb c "_") && negb (Ascii.eqb c ".")) (collapse b s) = true
  /\ (b = true -> match collapse b s with String c _ => pep_sep c = false | "" => True end).
Proof.
  induction s as [|c t IH]; intros b; [cbn; auto|]. cbn [collapse].
  destruct (pep_sep c) eqn:E.
  - destruct (IH true) as (H1 & H2 & H3). destruct b; [auto|].
    split; [|split; [cbn; exact H2|discriminate]].
    cbn [no_double_sep]. specialize (H3 eq_refl). destruct (collapse true t) as [|d u]; [reflexivity|].
    rewrite H3, andb_false_r. exact H1.
  - destruct (IH false) as (H1 & H2 & H3). split; [|split; [|intros _; exact E]].
    + cbn [no_double_sep]. destruct (collapse false t); [reflexivity|]. rewrite E. exact H1.
    + cbn [str_forall]. rewrite H2, andb_true_r.
      destruct (Ascii.eqb_spec c "_"); [subst; discriminate|].
      destruct (Ascii.eqb_spec c "."); [subst; discriminate|]. reflexivity.
Qed.

Lemma same_ecosystem_refl a : same_ecosystem a a.
Proof.
  exists (cut_before a ":"), (cut_after a ":"), (cut_before a ":"), (cut_after a ":").
  split; [apply eco_parts_cut|]. split; [apply eco_parts_cut|]. auto.
Qed.
Lemma same_ecosystem_sym a b : same_ecosystem a b -> same_ecosystem b a.
Proof. intros (ba & sa & bb & sb & H1 & H2 & H3 & H4). exists bb, sb, ba, sa. intuition. Qed.

(** spelling variants of one PyPI name are exactly those with equal normal form *)
Lemma pypi_match p q name name' :
  p = mkOPkg name "PyPI" -> q = mkOPkg name' "PyPI" ->
  (normalized_name p = normalized_name q <-> pep503 name = pep503 name').
Proof.
  intros -> ->. unfold normalized_name. cbn [op_eco op_name normalized_ecosystem].
  change (normalized_ecosystem (mkOPkg name "PyPI")) with "PyPI".
  change (normalized_ecosystem (mkOPkg name' "PyPI")) with "PyPI". cbn [negb seqb String.eqb].
  change (negb (seqb "PyPI" PipEcosystem)) with false. cbn iota.
  rewrite !replace_all_seps. reflexivity.
Qed.

(** verdicts ignore the order of events and the sorting algorithm *)
Lemma contains_version_order S S' sem r r' pkg b1 b2 r1 r2 :
  SorterOk S -> SorterOk S' -> VersionOrder (sem_cmp sem (p_cmp pkg)) ->
  range_same r r' -> wf_events (sem_cmp sem (p_cmp pkg)) (r_events r) ->
  contains_version S sem r pkg = Ok (b1, r1) -> contains_version S' sem r' pkg = Ok (b2, r2) -> b1 = b2.
Proof.
  intros HS HS' VO [Et P] W H1 H2.
  unfold contains_version in *. rewrite <- Et in H2.
  destruct (_ && _) in *; [congruence|].
  rewrite <- (Permutation_length P) in H2.
  destruct (Nat.eqb _ 0) in *; [congruence|].
  destruct (negb _); [discriminate|].
  destruct (sort_panics S sem (p_cmp pkg) (r_events r)); [discriminate|].
  destruct (sort_panics S' sem (p_cmp pkg) (r_events r')); [discriminate|].
  injection H1 as <- _. injection H2 as <- _.
  assert (K : forall T es, SorterOk T -> Permutation (r_events r) es ->
    (fold_left (ev_step sem pkg) (T Event (ev_less sem (p_cmp pkg)) es) false = true <->
     in_range (sem_cmp sem (p_cmp pkg)) (r_events r) (p_version pkg))).
  { intros T es HT Pe. pose proof (HT Event (ev_less sem (p_cmp pkg)) es) as [Q So].
    assert (We := wf_events_perm _ _ _ Pe W).
    assert (So' := So _ (ev_lt_swo _ VO) (ev_less_agrees sem (p_cmp pkg) _ (we_zero _ _ We))).
    rewrite (loop_in_range _ sem pkg eq_refl VO _ (wf_events_perm _ _ _ Q We) So').
    pose proof (Permutation_trans Pe Q) as PQ.
    split; apply in_range_perm; [now apply Permutation_sym|exact PQ]. }
  pose proof (K S (r_events r) HS (Permutation_refl _)) as K1.
  pose proof (K S' (r_events r') HS' P) as K2.
  destruct (fold_left _ _ _), (fold_left _ _ _); auto; [symmetry; apply K2, K1|apply K1, K2]; reflexivity.
Qed.

(** ** C67, C68 *)
Lemma affects_ecosystem_iff o eco : affects_ecosystem o eco = true <-> exists a, In a (o_affected o) /\ op_eco (a_pkg a) = eco.
Proof.
  unfold affects_ecosystem. rewrite existsb_exists. split; intros (a & H1 & H2); exists a; (split; [assumption|]); now apply seqb_eq.
Qed.

Lemma ev_version_hd e : ev_version e = hd "" (event_versions e).
Proof.
  unfold ev_version, event_versions. cbn [filter].
  destruct (seqb (introduced e) ""); cbn [negb]; [|reflexivity].
  destruct (seqb (fixed e) ""); cbn [negb]; [|reflexivity].
  destruct (seqb (last_affected e) ""); reflexivity.
Qed.
Lemma less_panics_iff sem eco a b : less_panics sem eco a b = true <-> unparseable_event sem eco a /\ introduced b <> "0".
Proof.
  unfold less_panics, unparseable_event. rewrite !andb_true_iff, !negb_true_iff, !seqb_neq, ev_version_hd. tauto.
Qed.
Lemma contains_version_crashes S sem r pkg : contains_version S sem r pkg = Panic <->
  crashes (comparisons S Event (ev_less sem (p_cmp pkg)) (r_events r)) sem pkg r.
Proof.
  unfold contains_version, crashes.
  destruct (negb (seqb (r_type r) TypeEcosystem) && negb (seqb (r_type r) TypeSemver)) eqn:Et.
  { split; [discriminate|]. intros [V _]. apply version_typed_iff in V. congruence. }
  apply version_typed_iff in Et.
  destruct (Nat.eqb_spec (List.length (r_events r)) 0) as [El|El].
  { split; [discriminate|]. intros (_ & N & _). elim N. now apply length_zero_iff_nil. }
  assert (N : r_events r <> []) by (intros C; rewrite C in El; now elim El).
  destruct (sem_ok sem (p_cmp pkg) (p_version pkg)) eqn:Es; cbn [negb]; [|tauto].
  destruct (sort_panics S sem (p_cmp pkg) (r_events r)) eqn:Ep.
  - split; [intros _|reflexivity]. split; [exact Et|]. split; [exact N|]. right. unfold sort_panics in Ep. apply existsb_exists in Ep as ((i, j) & I & Ep).
    destruct (nth_error (r_events r) i) as [e|] eqn:Ei; [|discriminate]. destruct (nth_error (r_events r) j) as [e'|] eqn:Ej; [|discriminate].
    exists i, j, e, e'. apply less_panics_iff in Ep as [U Z]. auto.
  - split; [discriminate|]. intros (_ & _ & [C|(i & j & e & e' & I & Ei & Ej & U & Z)]); [discriminate|]. exfalso.
    enough (sort_panics S sem (p_cmp pkg) (r_events r) = true) by congruence. unfold sort_panics. apply existsb_exists. exists (i, j). split; [exact I|].
    rewrite Ei, Ej. apply less_panics_iff. auto.
Qed.
Lemma contains_version_panic S sem r pkg : ComparesOk S -> contains_version S sem r pkg = Panic -> crash_range sem pkg r.
Proof.
  intros OK H. apply contains_version_crashes in H as (V & N & [C|(i & j & e & e' & I & Ei & Ej & U & Z)]); (split; [exact V|]; split; [exact N|]); [now left|].
  right. exists i, j, e, e'. destruct (OK _ _ _ _ _ I) as [D _]. auto.
Qed.
Lemma affects_version_panic S sem rs pkg : ComparesOk S -> affects_version S sem rs pkg = Panic -> exists r, In r rs /\ crash_range sem pkg r.
Proof.
  intros OK. induction rs as [|r rs IH]; cbn [affects_version]; [discriminate|].
  destruct (negb (seqb (r_type r) TypeEcosystem) && negb (seqb (r_type r) TypeSemver)); [discriminate|].
  destruct (contains_version S sem r pkg) as [[b r']|] eqn:E; cbn [rbind].
  - destruct b; [discriminate|]. destruct (affects_version S sem rs pkg) as [[b' rs']|]; cbn [rbind]; [discriminate|].
    intros _. destruct (IH eq_refl) as (x & Hx & Hc). exists x. split; [now right|assumption].
  - intros _. exists r. split; [now left|]. now apply (contains_version_panic S).
Qed.
Lemma is_affected_panic S sem o pkg : ComparesOk S -> is_affected S sem o pkg = Panic ->
  exists a r, In a (o_affected o) /\ In r (a_ranges a)
    /\ same_ecosystem (op_eco (a_pkg a)) (p_eco pkg) /\ match_name (a_pkg a) (p_name pkg) /\ crash_range sem pkg r.
Proof.
  unfold is_affected. intros OK H. assert (H' : affected_loop S sem (o_affected o) pkg = Panic).
  { destruct (affected_loop S sem (o_affected o) pkg) as [[b l]|]; [discriminate|reflexivity]. }
  clear H. induction (o_affected o) as [|a l IH]; cbn [affected_loop] in H'; [discriminate|].
  assert (K : affected_loop S sem l pkg = Panic -> exists a0 r, In a0 (a :: l) /\ In r (a_ranges a0)
    /\ same_ecosystem (op_eco (a_pkg a0)) (p_eco pkg) /\ match_name (a_pkg a0) (p_name pkg) /\ crash_range sem pkg r).
  { intros E. destruct (IH E) as (a0 & r & H1 & H2). exists a0, r. split; [now right|exact H2]. }
  clear IH. destruct (affected_loop S sem l pkg) as [[b0 l0]|] eqn:El; [clear K|apply K; reflexivity].
  destruct (ecosystems_equal (op_eco (a_pkg a)) (p_eco pkg) && seqb (normalized_name (a_pkg a)) (p_name pkg)) eqn:Em; [|discriminate].
  destruct (Nat.eqb (List.length (a_ranges a)) 0 && Nat.eqb (List.length (a_versions a)) 0); [discriminate|].
  destruct (mem (p_version pkg) (a_versions a)); [discriminate|].
  destruct (affects_version S sem (a_ranges a) pkg) as [[b rs]|] eqn:Ea; cbn [rbind] in H'.
  { destruct b; [discriminate|]. destruct (seqb (p_version pkg) ""); discriminate. }
  apply andb_true_iff in Em as [E1 E2]. apply ecosystems_equal_spec in E1. apply seqb_eq in E2.
  destruct (affects_version_panic _ _ _ _ OK Ea) as (r & Hr & Hc).
  exists a, r. split; [now left|]. split; [assumption|]. split; [assumption|]. split; [|assumption].
  now apply match_name_fun.
Qed.
