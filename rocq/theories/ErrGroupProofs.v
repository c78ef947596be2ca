From Verif Require Import GoStr ErrGroup.

Section Group.
Context {A E : Type}.
Variable n limit : nat.
Variable serve : nat -> E + A -> Prop.
Notation st := (@gstate A E).

Definition slot_of (o : option (E + A)) : option A := match o with Some (inr a) => Some a | _ => None end.

Record inv (out : nat -> option (E + A)) (s : st) : Prop := {
  iv_next : g_next s <= n;
  iv_lim : List.length (g_run s) <= limit;
  iv_nodup : NoDup (map fst (g_run s));
  iv_lt : forall i ph, In (i, ph) (g_run s) -> i < g_next s /\ out i = None;
  iv_all : forall i, i < g_next s -> In i (map fst (g_run s)) \/ out i <> None;
  iv_out : forall i r, out i = Some r -> i < g_next s /\ serve i r;
  iv_rep : forall i r, In (i, Replied r) (g_run s) -> serve i r;
  iv_len : List.length (g_slots s) = n;
  iv_slots : forall i, i < n -> nth i (g_slots s) None = slot_of (out i);
  iv_err1 : forall e, g_err s = Some e -> exists i, out i = Some (inl e);
  iv_err2 : g_err s = None -> forall i e, out i <> Some (inl e);
  iv_sent_nd : NoDup (g_sent s);
  iv_sent : forall i, In i (g_sent s) <-> out i <> None \/ exists ph, In (i, ph) (g_run s) /\ ph <> Started
}.

Lemma inv_init : inv (fun _ => None) (g_init n).
Proof.
  constructor; cbn.
  - lia.
  - lia.
  - constructor.
  - intros i ph [].
  - intros i H; lia.
  - discriminate.
  - intros i r [].
  - apply repeat_length.
  - intros i H. cbn. clear. revert i. induction n as [|m IH]; intros [|i]; cbn; auto.
  - discriminate.
  - discriminate.
  - constructor.
  - intros i. split; [intros []|]. intros [H|(ph & [] & _)]. now apply H.
Qed.

Lemma set_slot_length (l : list (option A)) i a : List.length (set_slot l i a) = List.length l.
Proof. revert i. induction l as [|x l IH]; intros [|i]; cbn; auto. Qed.
Lemma set_slot_nth (l : list (option A)) i a j : i < List.length l ->
  nth j (set_slot l i a) None = if Nat.eqb i j then Some a else nth j l None.
Proof.
  revert i j. induction l as [|x l IH]; intros i j H; cbn in H; [lia|].
  destruct i as [|i], j as [|j]; cbn; auto. apply IH. lia.
Qed.

Lemma in_mid {X} (x y : X) l1 l2 : In x (l1 ++ y :: l2) <-> x = y \/ In x (l1 ++ l2).
Proof. rewrite !in_app_iff. cbn. intuition congruence. Qed.

(** replacing the phase of one goroutine *)
Lemma map_fst_mid i (p q : @phase A E) l1 l2 :
  @map (nat * @phase A E) nat fst (l1 ++ (i, p) :: l2) = map fst (l1 ++ (i, q) :: l2).
Proof. rewrite !map_app. reflexivity. Qed.
Lemma nodup_mid_uniq {X} (i : nat) (p : X) l1 l2 j q : NoDup (map fst (l1 ++ (i, p) :: l2)) ->
  In (j, q) (l1 ++ l2) -> j <> i.
Proof.
  rewrite map_app. cbn [map fst]. intros H Hin ->. apply NoDup_remove_2 in H. apply H.
  rewrite <- map_app. apply in_map_iff. now exists (i, q).
Qed.

Lemma inv_step out s s' : inv out s -> gstep n limit serve s s' -> exists out', inv out' s'.
Proof.
  intros I St. destruct I as [I1 I2 I3 I4 I5 I6 I7 I8 I9 I10 I11 I12 I13]. destruct St as [nx run sl er se Hn Hl|nx l1 i l2 sl er se|nx l1 i l2 sl er se r Hs|nx l1 i l2 sl er se e|nx l1 i l2 sl er se a]; cbn [g_next g_run g_slots g_err g_sent] in *.
  - exists out. constructor; cbn [g_next g_run g_slots g_err g_sent]; auto.
    + rewrite app_length. cbn. lia.
    + rewrite map_app. cbn. apply Permutation_NoDup with (l := nx :: map fst run); [apply Permutation_cons_append|].
      constructor; [|assumption]. intros Hin. apply in_map_iff in Hin. destruct Hin as ([j ph] & E1 & H2). cbn in E1. subst j.
      apply I4 in H2. lia.
    + intros i ph Hin. apply in_app_iff in Hin. destruct Hin as [Hin|[Hin|[]]].
      * apply I4 in Hin. intuition lia.
      * injection Hin as <- _. split; [lia|]. destruct (out nx) as [r|] eqn:Eo; [|reflexivity]. apply I6 in Eo. lia.
    + intros i Hi. rewrite map_app, in_app_iff. cbn. destruct (Nat.eq_dec i nx) as [->|Hne]; [auto|].
      destruct (I5 i ltac:(lia)); auto.
    + intros i r Ho. apply I6 in Ho. intuition lia.
    + intros i r Hin. apply in_app_iff in Hin. destruct Hin as [Hin|[Hin|[]]]; [auto|discriminate].
    + intros i. rewrite I13. split; intros [H|(ph & H1 & H2)]; auto; right; exists ph; (split; [|assumption]).
      * apply in_app_iff; auto.
      * apply in_app_iff in H1. destruct H1 as [H1|[H1|[]]]; [assumption|]. injection H1 as _ <-. contradiction.
  - exists out. constructor; cbn [g_next g_run g_slots g_err g_sent]; auto.
    + rewrite app_length in *. cbn in *. lia.
    + now rewrite (map_fst_mid i Sent Started).
    + intros j ph Hin. apply in_mid in Hin. destruct Hin as [Hin|Hin].
      * injection Hin as -> _. apply (I4 i Started). apply in_mid. auto.
      * apply (I4 j ph). apply in_mid. auto.
    + intros j Hj. rewrite (map_fst_mid i Sent Started). auto.
    + intros j r Hin. apply in_mid in Hin. destruct Hin as [Hin|Hin]; [discriminate|]. apply I7. apply in_mid. auto.
    + apply Permutation_NoDup with (l := i :: se); [apply Permutation_cons_append|]. constructor; [|assumption].
      intros Hin. apply I13 in Hin. destruct Hin as [Hin|(ph & H1 & H2)].
      * destruct (I4 i Started) as [_ H]; [apply in_mid; auto|]. contradiction.
      * apply in_mid in H1. destruct H1 as [H1|H1]; [injection H1 as ->; contradiction|].
        exact (nodup_mid_uniq _ _ _ _ _ _ I3 H1 eq_refl).
    + intros j. rewrite in_app_iff. cbn. rewrite I13. split.
      * intros [[H|(ph & H1 & H2)]|[->|[]]]; auto.
        -- apply in_mid in H1. destruct H1 as [H1|H1]; [injection H1 as -> ->; contradiction|].
           right. exists ph. split; [apply in_mid; auto|assumption].
        -- right. exists Sent. split; [apply in_mid; auto|discriminate].
      * intros [H|(ph & H1 & H2)]; auto. apply in_mid in H1. destruct H1 as [H1|H1].
        -- injection H1 as -> _. auto.
        -- left. right. exists ph. split; [apply in_mid; auto|assumption].
  - exists out. constructor; cbn [g_next g_run g_slots g_err g_sent]; auto.
    + rewrite app_length in *. cbn in *. lia.
    + now rewrite (map_fst_mid i (Replied r) Sent).
    + intros j ph Hin. apply in_mid in Hin. destruct Hin as [Hin|Hin].
      * injection Hin as -> _. apply (I4 i Sent). apply in_mid. auto.
      * apply (I4 j ph). apply in_mid. auto.
    + intros j Hj. rewrite (map_fst_mid i (Replied r) Sent). auto.
    + intros j r' Hin. apply in_mid in Hin. destruct Hin as [Hin|Hin]; [injection Hin as -> ->; assumption|]. apply I7. apply in_mid. auto.
    + intros j. rewrite I13. split; (intros [H|(ph & H1 & H2)]; [auto|]); right; apply in_mid in H1; destruct H1 as [H1|H1].
      * injection H1 as -> ->. exists (Replied r). split; [apply in_mid; auto|discriminate].
      * exists ph. split; [apply in_mid; auto|assumption].
      * injection H1 as -> ->. exists Sent. split; [apply in_mid; auto|discriminate].
      * exists ph. split; [apply in_mid; auto|assumption].
  - assert (Hi : i < nx /\ out i = None) by (apply (I4 i (Replied (inl e))); apply in_mid; auto). destruct Hi as [Hi Ho].
    assert (Hse : serve i (inl e)) by (apply I7; apply in_mid; auto).
    exists (fun j => if Nat.eqb i j then Some (inl e) else out j).
    constructor; cbn [g_next g_run g_slots g_err g_sent]; auto.
    + rewrite app_length in *. cbn in *. lia.
    + rewrite map_app in *. cbn in I3. now apply NoDup_remove_1 in I3.
    + intros j ph Hin. pose proof (nodup_mid_uniq _ _ _ _ _ _ I3 Hin) as Hne.
      destruct (I4 j ph) as [H1 H2]; [apply in_mid; auto|]. split; [assumption|].
      destruct (Nat.eqb_spec i j); [congruence|assumption].
    + intros j Hj. destruct (Nat.eqb_spec i j) as [->|Hne]; [right; discriminate|].
      destruct (I5 j Hj) as [H|H]; [|auto]. left. rewrite map_app in *. apply in_mid in H. destruct H as [H|H]; [cbn in H; congruence|assumption].
    + intros j r. destruct (Nat.eqb_spec i j) as [->|Hne]; [|apply I6]. intros H. injection H as <-. auto.
    + intros j r Hin. apply I7. apply in_mid. auto.
    + intros j Hj. rewrite I9 by assumption. destruct (Nat.eqb_spec i j) as [->|Hne]; [now rewrite Ho|reflexivity].
    + intros e0 H. destruct er as [e1|].
      * injection H as ->. destruct (I10 e0 eq_refl) as [j Hj]. exists j. destruct (Nat.eqb_spec i j) as [->|Hne]; congruence.
      * injection H as ->. exists i. now rewrite Nat.eqb_refl.
    + intros H. destruct er; discriminate.
    + intros j. rewrite I13. split.
      * intros [H|(ph & H1 & H2)].
        -- left. destruct (Nat.eqb i j); [discriminate|assumption].
        -- apply in_mid in H1. destruct H1 as [H1|H1].
           ++ injection H1 as -> _. left. now rewrite Nat.eqb_refl.
           ++ right. eauto.
      * intros [H|(ph & H1 & H2)].
        -- destruct (Nat.eqb_spec i j) as [->|Hne]; [|auto]. right. exists (Replied (inl e)). split; [apply in_mid; auto|discriminate].
        -- right. exists ph. split; [apply in_mid; auto|assumption].
  - assert (Hi : i < nx /\ out i = None) by (apply (I4 i (Replied (inr a))); apply in_mid; auto). destruct Hi as [Hi Ho].
    assert (Hse : serve i (inr a)) by (apply I7; apply in_mid; auto).
    exists (fun j => if Nat.eqb i j then Some (inr a) else out j).
    constructor; cbn [g_next g_run g_slots g_err g_sent]; auto.
    + rewrite app_length in *. cbn in *. lia.
    + rewrite map_app in *. cbn in I3. now apply NoDup_remove_1 in I3.
    + intros j ph Hin. pose proof (nodup_mid_uniq _ _ _ _ _ _ I3 Hin) as Hne.
      destruct (I4 j ph) as [H1 H2]; [apply in_mid; auto|]. split; [assumption|].
      destruct (Nat.eqb_spec i j); [congruence|assumption].
    + intros j Hj. destruct (Nat.eqb_spec i j) as [->|Hne]; [right; discriminate|].
      destruct (I5 j Hj) as [H|H]; [|auto]. left. rewrite map_app in *. apply in_mid in H. destruct H as [H|H]; [cbn in H; congruence|assumption].
    + intros j r. destruct (Nat.eqb_spec i j) as [->|Hne]; [|apply I6]. intros H. injection H as <-. auto.
    + intros j r Hin. apply I7. apply in_mid. auto.
    + now rewrite set_slot_length.
    + intros j Hj. rewrite set_slot_nth by (rewrite I8; lia). destruct (Nat.eqb_spec i j) as [->|Hne]; [reflexivity|auto].
    + intros e0 H. destruct (I10 e0 H) as [j Hj]. exists j. destruct (Nat.eqb_spec i j) as [->|Hne]; congruence.
    + intros H j e0. destruct (Nat.eqb i j); [discriminate|auto].
    + intros j. rewrite I13. split.
      * intros [H|(ph & H1 & H2)].
        -- left. destruct (Nat.eqb i j); [discriminate|assumption].
        -- apply in_mid in H1. destruct H1 as [H1|H1].
           ++ injection H1 as -> _. left. now rewrite Nat.eqb_refl.
           ++ right. eauto.
      * intros [H|(ph & H1 & H2)].
        -- destruct (Nat.eqb_spec i j) as [->|Hne]; [|auto]. right. exists (Replied (inr a)). split; [apply in_mid; auto|discriminate].
        -- right. exists ph. split; [apply in_mid; auto|assumption].
Qed.

Lemma inv_steps k s : gsteps n limit serve k (g_init n) s -> exists out, inv out s.
Proof.
  intros H. remember (g_init n) as s0 eqn:E9. induction H as [s|k s1 s2 s3 H IH St]; subst.
  - eexists. apply inv_init.
  - destruct (IH eq_refl) as [out I]. exact (inv_step _ _ _ I St).
Qed.

Lemma group_bound k s : gsteps n limit serve k (g_init n) s -> List.length (g_run s) <= limit.
Proof. intros H. destruct (inv_steps _ _ H) as [out I]. apply (iv_lim _ _ I). Qed.

Definition is_ok (r : E + A) : bool := match r with inr _ => true | inl _ => false end.
Definition value (r : E + A) : option A := match r with inr a => Some a | inl _ => None end.

Lemma group_result k s : gsteps n limit serve k (g_init n) s -> g_done n s ->
  exists outs, List.length outs = n
    /\ (forall i r, nth_error outs i = Some r -> serve i r)
    /\ g_slots s = map value outs
    /\ (g_err s = None <-> forall r, In r outs -> is_ok r = true)
    /\ (forall e, g_err s = Some e -> In (inl e) outs)
    /\ Permutation (g_sent s) (seq 0 n).
Proof.
  intros H [D1 D2]. destruct (inv_steps _ _ H) as [out I]. destruct I as [I1 I2 I3 I4 I5 I6 I7 I8 I9 I10 I11 I12 I13].
  rewrite D1 in *. rewrite D2 in *.
  assert (T : forall i, i < n -> exists r, out i = Some r).
  { intros i Hi. destruct (I5 i Hi) as [[]|H1]. destruct (out i); [eauto|contradiction]. }
  assert (O : forall m, m <= n -> exists outs, List.length outs = m /\ forall i, i < m -> nth_error outs i = out i).
  { induction m as [|m IH]; intros Hm.
    - exists []. split; [reflexivity|]. intros i Hi; lia.
    - destruct (IH ltac:(lia)) as (outs & L & F). destruct (T m ltac:(lia)) as [r Hr].
      exists (outs ++ [r]). split; [rewrite app_length; cbn; lia|].
      intros i Hi. destruct (Nat.eq_dec i m) as [->|Hne].
      + rewrite nth_error_app2 by lia. rewrite L, Nat.sub_diag. cbn. congruence.
      + rewrite nth_error_app1 by lia. apply F. lia. }
  destruct (O n (le_n _)) as (outs & L & F).
  exists outs. split; [assumption|]. split; [|split; [|split; [|split]]].
  - intros i r Hr. assert (Hi : i < n) by (rewrite <- L; apply nth_error_Some; congruence).
    apply I6. rewrite <- F by assumption. assumption.
  - apply nth_ext with (d := None) (d' := None); [now rewrite map_length, L|].
    intros i Hi. rewrite I8 in Hi. rewrite I9 by assumption.
    destruct (T i Hi) as [r Hr]. pose proof (F i Hi) as Fi. rewrite Hr in Fi.
    rewrite Hr. symmetry. erewrite nth_error_nth; [|rewrite nth_error_map, Fi; reflexivity]. destruct r; reflexivity.
  - split.
    + intros He r Hr. apply In_nth_error in Hr. destruct Hr as [i Hi].
      assert (Hl : i < n) by (rewrite <- L; apply nth_error_Some; congruence).
      rewrite F in Hi by assumption. destruct r as [e|a]; [|reflexivity]. exfalso. exact (I11 He i e Hi).
    + intros Hall. destruct (g_err s) as [e|] eqn:Ee; [|reflexivity].
      destruct (I10 e eq_refl) as [i Hi]. pose proof (I6 _ _ Hi) as [Hl _]. rewrite <- F in Hi by assumption.
      apply nth_error_In in Hi. apply Hall in Hi. discriminate.
  - intros e He. destruct (I10 e He) as [i Hi]. pose proof (I6 _ _ Hi) as [Hl _]. rewrite <- F in Hi by assumption.
    now apply nth_error_In in Hi.
  - apply NoDup_Permutation; [assumption|apply seq_NoDup|]. intros i. rewrite I13, in_seq. split.
    + intros [Hi|(ph & [] & _)]. destruct (out i) as [r|] eqn:Er; [|contradiction]. apply I6 in Er. destruct Er as [Er _]. cbn. lia.
    + intros [_ Hi]. left. cbn in Hi. destruct (T i Hi) as [r Hr]. congruence.
Qed.

(** *** every schedule ends *)
Definition weight (p : @phase A E) : nat := match p with Started => 3 | Sent => 2 | Replied _ => 1 end.
Definition run_weight (l : list (nat * @phase A E)) : nat := fold_right (fun x acc => weight (snd x) + acc) 0 l.
Definition measure (s : st) : nat := 4 * (n - g_next s) + run_weight (g_run s).
Lemma run_weight_app a b : run_weight (a ++ b) = run_weight a + run_weight b.
Proof. induction a as [|x a IH]; [reflexivity|]. cbn [app]. unfold run_weight in *. cbn [fold_right]. lia. Qed.
Lemma step_measure s s' : gstep n limit serve s s' -> measure s = S (measure s').
Proof.
  destruct 1; unfold measure; cbn [g_next g_run]; rewrite ?run_weight_app; unfold run_weight; cbn [fold_right weight snd]; lia.
Qed.
Lemma group_terminates k s : gsteps n limit serve k (g_init n) s -> k + measure s = 4 * n.
Proof.
  intros H. remember (g_init n) as s0 eqn:E0. induction H as [s|k s1 s2 s3 H IH St]; subst.
  - unfold measure, g_init. cbn. lia.
  - apply step_measure in St. specialize (IH eq_refl). lia.
Qed.

Lemma group_progress k s : 0 < limit -> (forall i, i < n -> exists r, serve i r) ->
  gsteps n limit serve k (g_init n) s -> g_done n s \/ exists s', gstep n limit serve s s'.
Proof.
  intros Hl Hs H. destruct (inv_steps _ _ H) as [out I].
  destruct s as [nx run sl er se]. destruct run as [|[i ph] run].
  - destruct (Nat.eq_dec nx n) as [->|Hne]; [left; now split|].
    right. eexists. apply step_go; [pose proof (iv_next _ _ I) as H1; cbn in H1; lia|exact Hl].
  - right. destruct (iv_lt _ _ I i ph (or_introl eq_refl)) as [Hi _]. cbn in Hi.
    pose proof (iv_next _ _ I) as Hn. cbn in Hn.
    destruct ph as [| |[e|a]].
    + eexists. apply (step_send _ _ _ nx [] i run).
    + destruct (Hs i ltac:(lia)) as [r Hr]. eexists. apply (step_reply _ _ _ nx [] i run sl er se r Hr).
    + eexists. apply (step_fail _ _ _ nx [] i run).
    + eexists. apply (step_store _ _ _ nx [] i run).
Qed.
End Group.
