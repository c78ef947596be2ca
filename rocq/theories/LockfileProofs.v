(** Proofs about lockfile parsing, ecosystem lists and CSV input. *)
From Verif Require Import GoStr GoStrFacts GoSort GoSortFacts Types Path PathFacts MemDB GoMap Lockfile Csv LockfileSpec CsvSpec.

(** ** order *)
Lemma str_lt_iff a b : str_ltb a b = true <-> str_lt a b.
Proof.
  split.
  - revert b; induction a as [|c a IH]; intros [|d b]; cbn [str_ltb]; intros H; try discriminate; [constructor|].
    destruct (N.ltb (N_of_ascii c) (N_of_ascii d)) eqn:L.
    { apply sl_head. now apply N.ltb_lt. }
    destruct (N.ltb (N_of_ascii d) (N_of_ascii c)) eqn:L2; [discriminate|].
    apply N.ltb_ge in L, L2. assert (c = d) by (apply N_of_ascii_inj; lia). subst d.
    apply sl_tail. now apply IH.
  - intros H. induction H as [c s|c d s t L|c s t L IH]; cbn [str_ltb]; [reflexivity| |].
    + apply N.ltb_lt in L. now rewrite L.
    + now rewrite N.ltb_irrefl.
Qed.
Lemma str_le_iff a b : str_ltb b a = false <-> str_lt a b \/ a = b.
Proof.
  split.
  - intros H. destruct (str_ltb a b) eqn:E.
    + left. now apply str_lt_iff.
    + right. now apply str_ltb_total.
  - intros [H|H].
    + apply str_ltb_asym. now apply str_lt_iff.
    + subst. apply str_ltb_irrefl.
Qed.

Lemma pkg_less_swo : SWO pkg_less.
Proof.
  assert (K : forall a b, pkg_less a b = true <->
     str_ltb (p_name a) (p_name b) = true \/ (p_name a = p_name b /\ str_ltb (p_version a) (p_version b) = true)).
  { intros a b. unfold pkg_less. destruct (seqb_spec (p_name a) (p_name b)) as [E|E].
    - split; [tauto|]. intros [H|[_ H]]; [|exact H]. rewrite E, str_ltb_irrefl in H. discriminate.
    - split; [tauto|]. intros [H|[H _]]; [exact H|contradiction]. }
  assert (NK : forall a b, pkg_less a b = false <->
     str_ltb (p_name b) (p_name a) = true \/ (p_name a = p_name b /\ str_ltb (p_version a) (p_version b) = false)).
  { intros a b. unfold pkg_less. destruct (seqb_spec (p_name a) (p_name b)) as [E|E].
    - split; [tauto|]. intros [H|[_ H]]; [|exact H]. rewrite E, str_ltb_irrefl in H. discriminate.
    - split.
      + intros H. left. destruct (str_ltb (p_name b) (p_name a)) eqn:F; [reflexivity|].
        exfalso. apply E. now apply str_ltb_total.
      + intros [H|[H _]]; [now apply str_ltb_asym|contradiction]. }
  constructor.
  - intros a. unfold pkg_less. now rewrite seqb_refl, str_ltb_irrefl.
  - intros a b c. rewrite !K. intros [H|[H1 H2]] [G|[G1 G2]].
    + left. eapply str_ltb_trans; eauto.
    + left. now rewrite <- G1.
    + left. now rewrite H1.
    + right. split; [congruence|]. eapply str_ltb_trans; eauto.
  - intros a b c. rewrite !NK. intros [H|[H1 H2]] [G|[G1 G2]].
    + left. eapply str_ltb_trans; eauto.
    + left. now rewrite <- G1.
    + left. now rewrite H1.
    + right. split; [congruence|]. eapply (swo_negtrans _ str_ltb_swo); eauto.
Qed.

Lemma pkg_less_le a b : pkg_less b a = false <-> pkg_le a b.
Proof.
  unfold pkg_less, pkg_le. destruct (seqb_spec (p_name b) (p_name a)) as [E|E].
  - rewrite str_le_iff. split.
    + intros H. right. split; [now symmetry|exact H].
    + intros [H|[_ H]]; [|exact H]. apply str_lt_iff in H. rewrite E, str_ltb_irrefl in H. discriminate.
  - rewrite str_le_iff. split.
    + intros [H|H]; [now left|]. now symmetry in H.
    + intros [H|[H _]]; [now left|]. now symmetry in H.
Qed.

Lemma StronglySorted_impl {A} (R Q : A -> A -> Prop) l :
  (forall a b, R a b -> Q a b) -> StronglySorted R l -> StronglySorted Q l.
Proof.
  intros H K. induction K as [|a l K IH F]; constructor; [exact IH|].
  eapply Forall_impl; [|exact F]. intros b. apply H.
Qed.

Lemma sort_packages S l : SorterOk S -> sorted_packages l (S _ pkg_less l).
Proof.
  intros HS. split; [now apply sorter_perm|].
  eapply StronglySorted_impl; [|apply sorter_sorted; [exact HS|exact pkg_less_swo]].
  intros a b. apply pkg_less_le.
Qed.

Lemma parse_sorted S impl path parse_as lf e : SorterOk S ->
  parse S impl path parse_as = Ok (lf, e) ->
  (fst (find_parser path parse_as) = None /\ lf = empty_lockfile /\ e = Some (PNoParser path))
  \/ exists f ps err, fst (find_parser path parse_as) = Some f /\ impl f path = Ok (ps, err)
       /\ sorted_packages ps (lf_pkgs lf) /\ e = option_map PParser err
       /\ lf_path lf = path /\ lf_as lf = snd (find_parser path parse_as).
Proof.
  intros HS H. unfold parse in H. destruct (find_parser path parse_as) as [[f|] pa] eqn:F.
  - right. destruct (impl f path) as [[ps err]|] eqn:I; [|discriminate]. cbn in H. injection H as <- <-.
    exists f, ps, err. cbn. repeat split; auto; now apply sort_packages.
  - left. injection H as <- <-. cbn. auto.
Qed.

Lemma parse_complete S impl path parse_as f ps err : 
  fst (find_parser path parse_as) = Some f -> impl f path = Ok (ps, err) ->
  exists lf, parse S impl path parse_as = Ok (lf, option_map PParser err).
Proof.
  intros F I. unfold parse. destruct (find_parser path parse_as) as [[g|] pa]; [|discriminate].
  cbn in F. injection F as ->. rewrite I. cbn. eauto.
Qed.

(** ** ecosystems *)
Lemma set_add_in x y s : In y (set_add x s) <-> y = x \/ In y s.
Proof.
  unfold set_add. destruct (mem x s) eqn:E.
  - apply mem_iff in E. split; [tauto|]. intros [->|H]; auto.
  - rewrite in_app_iff. cbn. intuition.
Qed.
Lemma set_add_nodup x s : NoDup s -> NoDup (set_add x s).
Proof.
  intros H. unfold set_add. destruct (mem x s) eqn:E; [exact H|]. apply mem_false in E.
  apply (Permutation_NoDup (Permutation_app_comm [x] s)). now constructor.
Qed.
Lemma eco_set_in {A} (f : A -> string) l s y :
  In y (fold_left (fun m p => set_add (f p) m) l s) <-> In y s \/ exists p, In p l /\ f p = y.
Proof.
  revert s; induction l as [|p l IH]; intros s; cbn [fold_left].
  - split; [tauto|]. intros [H|[q [[] _]]]; exact H.
  - rewrite IH, set_add_in. split.
    + intros [[->|H]|[q [H1 H2]]]; [right; exists p; cbn; auto|now left|right; exists q; cbn; auto].
    + intros [H|[q [[->|H1] H2]]]; [auto|left; left; now symmetry|right; eauto].
Qed.
Lemma eco_set_nodup {A} (f : A -> string) l s :
  NoDup s -> NoDup (fold_left (fun m p => set_add (f p) m) l s).
Proof.
  revert s; induction l as [|p l IH]; intros s H; cbn [fold_left]; [exact H|].
  apply IH. now apply set_add_nodup.
Qed.
Lemma sorted_strict l : NoDup l -> sorted_by str_ltb l -> StronglySorted str_lt l.
Proof.
  intros D K. induction K as [|a l K IH F]; constructor; inversion D as [|? ? D1 D2]; subst.
  - now apply IH.
  - rewrite Forall_forall in F |- *. intros b I. specialize (F b I). apply str_le_iff in F as [F|F]; [exact F|].
    subst. contradiction.
Qed.
Lemma ecosystems_spec S it ps : SorterOk S -> IterOk it -> ecosystems_of ps (ecosystems S it ps).
Proof.
  intros HS HI. unfold ecosystems.
  set (m := fold_left (fun m p => set_add (p_eco p) m) ps []).
  assert (D : NoDup (to_slice_of_ecosystems it m)).
  { unfold to_slice_of_ecosystems. apply NoDup_filter.
    apply (Permutation_NoDup (HI _ m)). apply (eco_set_nodup p_eco). constructor. }
  split.
  - apply sorted_strict; [|apply sorter_sorted; [exact HS|exact str_ltb_swo]].
    exact (Permutation_NoDup (sorter_perm S _ str_ltb _ HS) D).
  - intros e. split.
    + intros I. apply (Permutation_in _ (Permutation_sym (sorter_perm S _ str_ltb _ HS))) in I.
      unfold to_slice_of_ecosystems in I. apply filter_In in I as [I N].
      apply negb_true_iff, seqb_neq in N. split; [exact N|].
      apply (Permutation_in _ (Permutation_sym (HI _ m))) in I.
      apply eco_set_in in I as [[]|I]. exact I.
    + intros [N I]. apply (Permutation_in _ (sorter_perm S _ str_ltb _ HS)).
      unfold to_slice_of_ecosystems. apply filter_In. split.
      * apply (Permutation_in _ (HI _ m)). apply (eco_set_in p_eco). now right.
      * now apply negb_true_iff, seqb_neq.
Qed.
Lemma strict_unique l1 l2 : StronglySorted str_lt l1 -> StronglySorted str_lt l2 ->
  (forall x, In x l1 <-> In x l2) -> l1 = l2.
Proof.
  assert (ND : forall l, StronglySorted str_lt l -> NoDup l).
  { intros l K. induction K as [|a l K IH F]; constructor; [|exact IH].
    intros I. rewrite Forall_forall in F. specialize (F a I). apply str_lt_iff in F. rewrite str_ltb_irrefl in F. discriminate. }
  intros K1 K2 H. apply (sorted_unique str_ltb).
  - exact str_ltb_swo.
  - intros a b A B. now apply str_ltb_total.
  - apply NoDup_Permutation; auto.
  - eapply StronglySorted_impl; [|exact K1]. intros a b L. apply str_le_iff. now left.
  - eapply StronglySorted_impl; [|exact K2]. intros a b L. apply str_le_iff. now left.
Qed.
Lemma ecosystems_order_free S it S' it' ps ps' : SorterOk S -> IterOk it -> SorterOk S' -> IterOk it' ->
  Permutation ps ps' -> ecosystems S it ps = ecosystems S' it' ps'.
Proof.
  intros HS HI HS' HI' P.
  destruct (ecosystems_spec S it ps HS HI) as [K1 E1], (ecosystems_spec S' it' ps' HS' HI') as [K2 E2].
  apply strict_unique; auto. intros x. rewrite E1, E2.
  split; intros [N [p [I E]]]; (split; [exact N|]); exists p; (split; [|exact E]);
    [exact (Permutation_in _ P I)|exact (Permutation_in _ (Permutation_sym P) I)].
Qed.

(** ** choosing a parser *)
Lemma map_get_in {A} k (m : list (string * A)) : (exists v, map_get k m = Some v) <-> In k (map fst m).
Proof.
  induction m as [|[k' v'] m IH]; cbn [map_get map fst In].
  - split; [intros [v H]; discriminate|tauto].
  - destruct (seqb_spec k' k) as [E|E].
    + split; [tauto|]. intros _. eauto.
    + rewrite IH. split; [tauto|]. intros [H|H]; [contradiction|exact H].
Qed.
Lemma supported_same n : In n (map fst parsers) <-> In n supported.
Proof. cbn. split; intros H; repeat (destruct H as [H|H]; [subst; tauto|]); destruct H. Qed.
Lemma find_parser_spec path parse_as :
  let '(f, name) := find_parser path parse_as in
  (parse_as <> "" -> name = parse_as) /\ (parse_as = "" -> forall n, file_name path n -> name = n)
  /\ ((exists g, f = Some g) <-> In name supported).
Proof.
  unfold find_parser. rewrite <- supported_same, <- map_get_in.
  destruct (seqb_spec parse_as "") as [E|E]; (split; [|split]); try tauto.
  intros _ n [N [C [H|[d H]]]]; subst path.
  - unfold path_base. apply seqb_neq in N as N'. rewrite N'.
    assert (Q : str_rev (trim_trailing_slashes (str_rev n)) = n).
    { destruct (str_rev n) as [|c r] eqn:R.
      - apply (f_equal str_rev) in R. rewrite str_rev_involutive in R. cbn in R. contradiction.
      - cbn [trim_trailing_slashes]. destruct (Ascii.eqb c "/") eqn:X.
        + apply Ascii.eqb_eq in X. subst c. apply (f_equal str_rev) in R. rewrite str_rev_involutive, str_rev_cons in R.
          rewrite R, has_char_app in C. cbn in C. now rewrite orb_true_r in C.
        + rewrite <- R. apply str_rev_involutive. }
    rewrite Q, N'. now rewrite (proj2 (cut_last_none _ _) C).
  - unfold path_base.
    assert (N1 : seqb (d +s+ "/" +s+ n) "" = false).
    { apply seqb_neq. intros X. apply sapp_nil_inv in X as [_ X]. apply sapp_nil_inv in X as [X _]. discriminate. }
    rewrite N1.
    assert (Q : str_rev (trim_trailing_slashes (str_rev (d +s+ "/" +s+ n))) = d +s+ "/" +s+ n).
    { rewrite !str_rev_append. destruct (str_rev n) as [|c r] eqn:R.
      - apply (f_equal str_rev) in R. rewrite str_rev_involutive in R. cbn in R. contradiction.
      - cbn [String.append trim_trailing_slashes]. destruct (Ascii.eqb c "/") eqn:X.
        + apply Ascii.eqb_eq in X. subst c. apply (f_equal str_rev) in R. rewrite str_rev_involutive, str_rev_cons in R.
          rewrite R, has_char_app in C. cbn in C. now rewrite orb_true_r in C.
        + rewrite !str_rev_cons, !str_rev_append, !str_rev_involutive.
          apply (f_equal str_rev) in R. rewrite str_rev_involutive, str_rev_cons in R. rewrite R.
          cbn. now rewrite !sapp_assoc. }
    rewrite Q, N1. cbn [String.append].
    assert (X : cut_last "/" (d +s+ String "/" n) = Some (d, n)) by (apply cut_last_some; auto).
    now rewrite X.
Qed.

Lemma list_parsers_all S it : SorterOk S -> IterOk it -> list_parsers S it = supported.
Proof.
  intros HS HI. unfold list_parsers.
  set (lt := fun a b => str_ltb (to_lower a) (to_lower b)).
  assert (W : SWO lt).
  { unfold lt. constructor; intros; [apply str_ltb_irrefl|eapply str_ltb_trans; eauto|eapply (swo_negtrans _ str_ltb_swo); eauto]. }
  assert (P : Permutation (S _ lt (it _ (map fst parsers))) supported).
  { rewrite <- (sorter_perm S _ lt _ HS), <- (HI _ (map fst parsers)).
    apply NoDup_Permutation; [| |exact supported_same].
    - repeat (constructor; [cbn; intuition discriminate|]). constructor.
    - repeat (constructor; [cbn; intuition discriminate|]). constructor. }
  pose proof (sorter_sorted S _ lt (it _ (map fst parsers)) HS W) as K.
  revert P K. generalize (S _ lt (it _ (map fst parsers))). intros l P K.
  assert (T : StronglySorted (fun a b => lt a b = true) supported).
  { repeat (constructor; [|repeat (constructor; [vm_compute; reflexivity|]); constructor]). constructor. }
  revert l P K T. generalize supported. intros sup. induction sup as [|a sup IH]; intros l P K T.
  - apply Permutation_sym, Permutation_nil in P. exact P.
  - destruct l as [|b l].
    { apply Permutation_nil in P. discriminate. }
    inversion T as [|? ? T1 T2]; subst. inversion K as [|? ? K1 K2]; subst.
    assert (a = b).
    { assert (I : In b (a :: sup)) by (apply (Permutation_in _ P); now left).
      destruct I as [I|I]; [exact I|]. rewrite Forall_forall in T2. specialize (T2 b I).
      assert (J : In a (b :: l)) by (apply (Permutation_in _ (Permutation_sym P)); now left).
      destruct J as [J|J]; [now symmetry|]. rewrite Forall_forall in K2. specialize (K2 a J). congruence. }
    subst b. f_equal. apply IH; auto. eapply Permutation_cons_inv; eauto.
Qed.

(** ** CSV records *)
Lemma record_package r p : from_csv_record r = inr p <-> csv_package r p.
Proof.
  split.
  - intros H. destruct r as [|eco [|cmp [|name [|version more]]]]; cbn in H; try discriminate.
    destruct (seqb_spec eco "") as [E|E].
    + subst. destruct (seqb_spec version ""); [discriminate|]. destruct (seqb_spec name ""); [discriminate|].
      injection H as <-. destruct (seqb_spec cmp "") as [->|]; now constructor.
    + destruct (seqb_spec name ""); [discriminate|]. injection H as <-. now constructor.
  - intros H. inversion H as [eco cmp name version more E N|cmp name commit more N C]; subst; cbn.
    + apply seqb_neq in E, N. now rewrite E, N.
    + apply seqb_neq in C, N. rewrite C, N. destruct (seqb_spec cmp "") as [->|]; reflexivity.
Qed.
Lemma record_rejected r : (exists e, from_csv_record r = inl e) <-> ~ exists p, csv_package r p.
Proof.
  split.
  - intros [e H] [p P]. apply record_package in P. congruence.
  - intros N. destruct (from_csv_record r) as [e|p] eqn:H; [eauto|]. exfalso. apply N. exists p. now apply record_package.
Qed.
Lemma record_bad r e : from_csv_record r = inl e <-> bad_record r e.
Proof.
  split.
  - intros H. destruct r as [|eco [|cmp [|name [|version more]]]]; cbn in H.
    1-4: injection H as <-; constructor; cbn; lia.
    destruct (seqb_spec eco "") as [E|E]; [subst; destruct (seqb_spec version "") as [V|V]|].
    + subst. injection H as <-. constructor.
    + destruct (seqb_spec name ""); [|discriminate]. subst. injection H as <-. constructor. auto.
    + destruct (seqb_spec name ""); [|discriminate]. subst. injection H as <-. constructor. auto.
  - intros H. inversion H as [r' L|cmp name more|eco cmp v more N]; subst.
    + destruct r as [|eco [|cmp [|name [|version more]]]]; cbn in L |- *; try reflexivity. lia.
    + reflexivity.
    + cbn. destruct (seqb_spec eco "") as [->|E]; [|reflexivity].
      destruct (seqb_spec v "") as [->|V]; [|reflexivity]. destruct N; contradiction.
Qed.
