(** Facts about the sorting contract; insertion sort satisfies it. *)
From Verif Require Import GoStr GoStrFacts GoSort.

Lemma ins_perm {A} (less : A -> A -> bool) x rp : Permutation (x :: rp) (ins less x rp).
Proof.
  induction rp as [|y rp IH]; simpl; [reflexivity|].
  destruct (less x y); [|reflexivity]. rewrite perm_swap. now constructor.
Qed.
Lemma fold_ins_perm {A} (less : A -> A -> bool) l acc :
  Permutation (l ++ acc) (fold_left (fun rp x => ins less x rp) l acc).
Proof.
  revert acc; induction l as [|x l IH]; intros acc; simpl; [reflexivity|].
  rewrite <- IH. rewrite <- ins_perm. apply Permutation_middle.
Qed.
Lemma isort_perm {A} (less : A -> A -> bool) l : Permutation l (isort A less l).
Proof.
  cbn [isort sort_slice]. rewrite <- Permutation_rev, <- fold_ins_perm. now rewrite app_nil_r.
Qed.

Lemma ins_ext {A} (f g : A -> A -> bool) x rp :
  Forall (fun y => f x y = g x y) rp -> ins f x rp = ins g x rp.
Proof.
  induction 1 as [|y rp H F IH]; simpl; [reflexivity|]. rewrite H, IH. reflexivity.
Qed.
Lemma Forall_perm {A} (P : A -> Prop) l l' : Permutation l l' -> Forall P l -> Forall P l'.
Proof.
  intros H F. rewrite Forall_forall in *. intros x I. apply F.
  eapply Permutation_in; [symmetry; exact H | exact I].
Qed.
Lemma fold_ins_ext {A} (f g : A -> A -> bool) l acc :
  agrees f g l -> (forall x y, In x l -> In y acc -> f x y = g x y) ->
  fold_left (fun rp x => ins f x rp) l acc = fold_left (fun rp x => ins g x rp) l acc.
Proof.
  intros H. revert acc; induction H as [|x l H F IH]; intros acc HA; simpl; [reflexivity|].
  rewrite (ins_ext f g) by (apply Forall_forall; intros y I; apply HA; simpl; auto).
  apply IH. intros a b Ia Ib.
  apply Permutation_in with (l' := x :: acc) in Ib; [|symmetry; apply ins_perm].
  destruct Ib as [<-|Ib]; [|apply HA; simpl; auto].
  rewrite Forall_forall in H. apply H. auto.
Qed.
Lemma ins_sorted {A} (lt : A -> A -> bool) x rp :
  SWO lt -> StronglySorted (fun a b => lt a b = false) rp ->
  StronglySorted (fun a b => lt a b = false) (ins lt x rp).
Proof.
  intros O. induction 1 as [|y rp HS IH HF]; simpl; [repeat constructor|].
  destruct (lt x y) eqn:E.
  - constructor; [auto|]. eapply Forall_perm; [apply ins_perm|]. constructor; [|auto].
    destruct (lt y x) eqn:E2; [|reflexivity].
    pose proof (swo_trans _ O _ _ _ E E2) as G. now rewrite (swo_irrefl _ O) in G.
  - constructor; [constructor; auto|]. constructor; [exact E|].
    rewrite Forall_forall in *. intros z I. eapply (swo_negtrans _ O); eauto.
Qed.
Lemma fold_ins_sorted {A} (lt : A -> A -> bool) l acc :
  SWO lt -> StronglySorted (fun a b => lt a b = false) acc ->
  StronglySorted (fun a b => lt a b = false) (fold_left (fun rp x => ins lt x rp) l acc).
Proof.
  intros O. revert acc; induction l as [|x l IH]; intros acc H; simpl; [auto|].
  apply IH, ins_sorted; auto.
Qed.
Lemma StronglySorted_app {A} (R : A -> A -> Prop) l1 l2 :
  StronglySorted R (l1 ++ l2) <->
  StronglySorted R l1 /\ StronglySorted R l2 /\ forall a b, In a l1 -> In b l2 -> R a b.
Proof.
  induction l1 as [|x l1 IH]; simpl.
  - split; [intros H; repeat split; auto; [constructor | intros; contradiction] | tauto].
  - split.
    + intros H. inversion H as [|? ? H1 H2]; subst. apply IH in H1 as (S1 & S2 & C).
      rewrite Forall_forall in H2. repeat split; auto.
      * constructor; [auto|]. apply Forall_forall. intros y I. apply H2. apply in_or_app; auto.
      * intros a b [<-|I] J; [apply H2, in_or_app; auto | auto].
    + intros (S1 & S2 & C). inversion S1 as [|? ? H1 H2]; subst. constructor.
      * apply IH. repeat split; auto.
      * apply Forall_forall. intros y I. apply in_app_or in I as [I|I]; [|auto].
        rewrite Forall_forall in H2. auto.
Qed.
Lemma StronglySorted_rev {A} (R : A -> A -> Prop) l :
  StronglySorted R l -> StronglySorted (fun a b => R b a) (rev l).
Proof.
  induction 1 as [|x l H IH F]; simpl; [constructor|].
  apply StronglySorted_app. repeat split; [auto | repeat constructor |].
  intros a b I [<-|[]]. rewrite Forall_forall in F. apply F. now apply in_rev.
Qed.
Theorem isort_ok : SorterOk isort.
Proof.
  intros A less l. split; [apply isort_perm|].
  intros lt O AG. cbn [isort sort_slice]. unfold sorted_by.
  rewrite (fold_ins_ext less lt) by (auto; intros x y _ []).
  apply (StronglySorted_rev (fun a b => lt a b = false)).
  apply fold_ins_sorted; [auto | constructor].
Qed.

(** insertion sort compares different elements only *)
Lemma ins_compares_in {A} (less : A -> A -> bool) x rp i j : In (i, j) (ins_compares less x rp) -> i = fst x /\ In j (map fst rp).
Proof.
  induction rp as [|y rp IH]; [intros []|]. cbn [ins_compares]. intros [[= <- <-]|I]; [split; [reflexivity|now left]|].
  destruct (less (snd x) (snd y)); [|destruct I]. destruct (IH I) as [E J]. split; [exact E|now right].
Qed.
Theorem isort_compares_ok : ComparesOk isort.
Proof.
  intros A less l i j. cbn [isort comparisons]. unfold isort_compares.
  assert (G : forall ps rp cs n, map fst ps = seq n (List.length ps) ->
    (forall k, In k (map fst rp) -> k < n) -> (forall i j, In (i, j) cs -> i <> j /\ i < n /\ j < n) ->
    forall i j, In (i, j) (snd (fold_left (fun '(rp, cs) x => (ins (fun a b : nat * A => less (snd a) (snd b)) x rp, cs ++ ins_compares less x rp)) ps (rp, cs))) ->
    i <> j /\ i < n + List.length ps /\ j < n + List.length ps).
  { induction ps as [|x ps IH]; intros rp cs n E R C a b I; cbn [fold_left] in I.
    - cbn [snd] in I. destruct (C _ _ I) as (H1 & H2 & H3). split; [exact H1|]. cbn. lia.
    - cbn [map List.length seq] in E. injection E as E1 E2. cbn [List.length]. rewrite <- plus_n_Sm. apply (IH _ _ (Datatypes.S n) E2) in I; [exact I| |].
      + intros k K. apply in_map_iff in K as (p & <- & K). apply Permutation_in with (l' := x :: rp) in K; [|symmetry; apply ins_perm].
        destruct K as [<-|K]; [lia|]. assert (fst p < n) by (apply R, in_map, K). lia.
      + intros p q J. apply in_app_or in J as [J|J]; [destruct (C _ _ J) as (H1 & H2 & H3); split; [exact H1|lia]|].
        apply ins_compares_in in J as [-> J]. apply R in J. lia. }
  intros I. destruct (fun H => G (combine (seq 0 (List.length l)) l) [] [] 0 H (fun _ (F : False) => match F with end) (fun _ _ (F : False) => match F with end) i j I) as (H1 & H2 & H3).
  - rewrite combine_length, seq_length, Nat.min_id. generalize 0. clear I. induction l as [|x l IH]; intros n; cbn; [reflexivity|]. now rewrite IH.
  - rewrite combine_length, seq_length, Nat.min_id in H2, H3. auto.
Qed.

Lemma agrees_refl {A} (lt : A -> A -> bool) l : agrees lt lt l.
Proof. induction l as [|x l IH]; constructor; [apply Forall_forall; auto | exact IH]. Qed.
Lemma sorter_perm S A (less : A -> A -> bool) l : SorterOk S -> Permutation l (S A less l).
Proof. intros H. apply (H A less l). Qed.
Lemma sorter_sorted S A (lt : A -> A -> bool) l : SorterOk S -> SWO lt -> sorted_by lt (S A lt l).
Proof. intros H O. apply (proj2 (H A lt l)); [auto | apply agrees_refl]. Qed.

(** the byte-wise order on strings is a strict weak (indeed total) order *)
Lemma str_ltb_swo : SWO str_ltb.
Proof.
  constructor; [apply str_ltb_irrefl | apply str_ltb_trans |].
  intros a b c H1 H2. destruct (str_ltb a c) eqn:E; [|reflexivity].
  destruct (str_ltb b a) eqn:F.
  - rewrite (str_ltb_trans _ _ _ F E) in H2. discriminate.
  - apply (str_ltb_total _ _ H1) in F. subst. congruence.
Qed.

(** two sorted permutations w.r.t. a total strict order are equal *)
Lemma sorted_unique {A} (lt : A -> A -> bool) l1 l2 :
  SWO lt -> (forall a b, lt a b = false -> lt b a = false -> a = b) ->
  Permutation l1 l2 -> sorted_by lt l1 -> sorted_by lt l2 -> l1 = l2.
Proof.
  intros O T P S1. revert l2 P. induction S1 as [|x l1 S1 IH F]; intros l2 P S2.
  - apply Permutation_nil in P. now subst.
  - destruct l2 as [|y l2]; [symmetry in P; apply Permutation_nil in P; discriminate|].
    assert (x = y) as ->.
    { inversion S2 as [|? ? S2' F2]; subst.
      rewrite Forall_forall in F, F2.
      assert (In y (x :: l1)) as I by (eapply Permutation_in; [symmetry; exact P | simpl; auto]).
      assert (In x (y :: l2)) as J by (eapply Permutation_in; [exact P | simpl; auto]).
      destruct I as [->|I]; [reflexivity|]. destruct J as [->|J]; [reflexivity|].
      apply T; [apply F2 | apply F]; auto. }
    f_equal. inversion S2; subst. apply IH; [|auto]. eapply Permutation_cons_inv; exact P.
Qed.
Lemma sorter_unique S A (lt : A -> A -> bool) l1 l2 :
  SorterOk S -> SWO lt -> (forall a b, lt a b = false -> lt b a = false -> a = b) ->
  Permutation l1 l2 -> S A lt l1 = S A lt l2.
Proof.
  intros H O T P. eapply sorted_unique; eauto using sorter_sorted.
  rewrite <- (sorter_perm S A lt l1 H), <- (sorter_perm S A lt l2 H). exact P.
Qed.
