From Verif Require Import GoStr GoStrFacts GoSort GoSortFacts Types Osv OsvSpec MemDB MemDBSpec OsvProofs.

(** ** related / includes / Unique *)
Lemma related_sym a b : related a b -> related b a.
Proof.
  unfold related. intros [H|[H|[H|(x & H1 & H2)]]]; auto.
  right; right; right. eauto.
Qed.

Lemma is_alias_of_iff a b : is_alias_of a b = true <->
  exists x, In x (o_aliases b) /\ (x = o_id a \/ In x (o_aliases a)).
Proof.
  unfold is_alias_of. rewrite existsb_exists. split.
  - intros (x & H1 & H2). exists x. split; [exact H1|].
    apply orb_prop in H2 as [H2|H2]; [left; symmetry; now apply seqb_eq|right; now apply mem_iff].
  - intros (x & H1 & H2). exists x. split; [exact H1|].
    apply orb_true_iff. destruct H2 as [->|H2]; [left; apply seqb_refl|right; now apply mem_iff].
Qed.

Lemma related_bool a b :
  seqb (o_id a) (o_id b) || is_alias_of a b || is_alias_of b a = true <-> related a b.
Proof.
  rewrite !orb_true_iff, seqb_eq, !is_alias_of_iff. unfold related. split.
  - intros [[H|(x & H1 & [->|H2])]|(x & H1 & [->|H2])]; eauto 6.
  - intros [H|[H|[H|(x & H1 & H2)]]]; eauto 6.
Qed.

Lemma includes_iff vs v : includes vs v = true <-> exists x, In x vs /\ related x v.
Proof.
  unfold includes. rewrite existsb_exists. split; intros (x & H1 & H2); exists x; split; auto; now apply related_bool.
Qed.
Lemma includes_false vs v : includes vs v = false <-> forall x, In x vs -> ~ related x v.
Proof.
  rewrite <- not_true_iff_false, includes_iff. split.
  - intros H x Hx R. apply H. eauto.
  - intros H (x & Hx & R). exact (H x Hx R).
Qed.

Lemma unique_snoc l v : unique (l ++ [v]) = if includes (unique l) v then unique l else unique l ++ [v].
Proof. unfold unique. now rewrite fold_left_app. Qed.

Lemma unique_dedup l : dedup_of l (unique l).
Proof.
  induction l as [|v l IH] using rev_ind; [constructor|].
  rewrite unique_snoc. destruct (includes (unique l) v) eqn:E.
  - apply includes_iff in E as (x & H1 & H2). econstructor; eauto.
  - constructor; [exact IH|]. now apply includes_false.
Qed.

Lemma app_nil_snoc {A} (l : list A) x : [] = l ++ [x] -> False.
Proof. destruct l; discriminate. Qed.

Lemma dedup_inv l v k : dedup_of (l ++ [v]) k ->
  exists k0, dedup_of l k0 /\ ((k = k0 ++ [v] /\ forall x, In x k0 -> ~ related x v)
     \/ (k = k0 /\ exists x, In x k0 /\ related x v)).
Proof.
  intros H. inversion H as [H1 H2|l0 k0 v0 D C E1 E2|l0 k0 v0 x D Hi R E1 E2].
  - exfalso. now apply app_nil_snoc in H1.
  - apply app_inj_tail in E1 as [-> ->]. exists k0. subst. auto.
  - apply app_inj_tail in E1 as [-> ->]. exists k. subst k0. split; [exact D|]. right. split; [reflexivity|eauto].
Qed.

Lemma dedup_fun l k k' : dedup_of l k -> dedup_of l k' -> k = k'.
Proof.
  revert k k'. induction l as [|v l IH] using rev_ind; intros k k' H H'.
  - assert (K : forall q, dedup_of [] q -> q = []).
    { intros q Hq. remember [] as l eqn:E. destruct Hq; auto; symmetry in E; now apply app_nil_snoc in E. }
    now rewrite (K _ H), (K _ H').
  - apply dedup_inv in H as (k0 & D & H). apply dedup_inv in H' as (k1 & D' & H').
    rewrite (IH _ _ D D') in *.
    destruct H as [[-> H]|[-> (x & Hx & R)]], H' as [[-> H']|[-> (y & Hy & R')]]; auto.
    + exfalso. exact (H y Hy R').
    + exfalso. exact (H' x Hx R).
Qed.

Lemma dedup_props l k : dedup_of l k ->
  incl k l /\ ForallOrdPairs (fun a b => ~ related a b) k
  /\ (forall v, In v l -> exists x, In x k /\ (x = v \/ related x v)).
Proof.
  intros D. induction D as [|l k v D (I1 & I2 & I3) C|l k v x D (I1 & I2 & I3) Hx R].
  - split; [intros x []|]. split; [constructor|intros v []].
  - split; [|split].
    + apply incl_app; [now apply incl_appl|apply incl_appr, incl_refl].
    + clear - I2 C. induction k as [|a k IH]; cbn.
      * repeat constructor.
      * inversion I2; subst. constructor.
        -- apply Forall_app. split; [assumption|]. constructor; [|constructor]. apply C. now left.
        -- apply IH; [assumption|]. intros y Hy. apply C. now right.
    + intros y Hy. apply in_app_or in Hy as [Hy|[<-|[]]].
      * destruct (I3 y Hy) as (z & Hz & E). exists z. split; [apply in_or_app; now left|exact E].
      * exists v. split; [apply in_or_app; right; now left|now left].
  - split; [|split].
    + now apply incl_appl.
    + exact I2.
    + intros y Hy. apply in_app_or in Hy as [Hy|[<-|[]]]; [auto|]. eauto.
Qed.

(** ** [osv_same] is harmless *)
Lemma range_same_sym r r' : range_same r r' -> range_same r' r.
Proof. intros [H1 H2]. split; [now symmetry|now apply Permutation_sym]. Qed.
Lemma range_same_trans a b c : range_same a b -> range_same b c -> range_same a c.
Proof. intros [H1 H2] [H3 H4]. split; [congruence|now apply Permutation_trans with (r_events b)]. Qed.

Lemma Forall2_sym {A} (R : A -> A -> Prop) : (forall a b, R a b -> R b a) -> forall l l', Forall2 R l l' -> Forall2 R l' l.
Proof. intros H l l' F. induction F; constructor; auto. Qed.
Lemma Forall2_trans {A} (R : A -> A -> Prop) : (forall a b c, R a b -> R b c -> R a c) ->
  forall l1 l2 l3, Forall2 R l1 l2 -> Forall2 R l2 l3 -> Forall2 R l1 l3.
Proof.
  intros H l1 l2 l3 F. revert l3. induction F; intros l3 G; inversion G; subst; constructor; eauto.
Qed.
Lemma Forall2_refl {A} (R : A -> A -> Prop) : (forall a, R a a) -> forall l, Forall2 R l l.
Proof. intros H l. induction l; constructor; auto. Qed.

Lemma affected_same_sym a b : affected_same a b -> affected_same b a.
Proof. intros (H1 & H2 & H3). repeat split; auto. now apply (Forall2_sym _ range_same_sym). Qed.
Lemma affected_same_trans a b c : affected_same a b -> affected_same b c -> affected_same a c.
Proof.
  intros (H1 & H2 & H3) (G1 & G2 & G3). repeat split; try congruence.
  now apply (Forall2_trans _ range_same_trans) with (a_ranges b).
Qed.

Lemma osv_same_refl o : osv_same o o.
Proof. constructor; auto using affecteds_same_refl. Qed.
Lemma osv_same_sym o o' : osv_same o o' -> osv_same o' o.
Proof. intros []. constructor; auto. now apply (Forall2_sym _ affected_same_sym). Qed.
Lemma osv_same_trans a b c : osv_same a b -> osv_same b c -> osv_same a c.
Proof.
  intros [] []. constructor; try congruence.
  now apply (Forall2_trans _ affected_same_trans) with (o_affected b).
Qed.

Lemma Forall2_in_l {A B} (R : A -> B -> Prop) l l' x : Forall2 R l l' -> In x l -> exists y, In y l' /\ R x y.
Proof.
  intros F. induction F; intros []; subst.
  - eexists; split; [now left|assumption].
  - destruct IHF as (z & G1 & G2); [assumption|]. exists z. split; [now right|exact G2].
Qed.
Lemma Forall2_in_r {A B} (R : A -> B -> Prop) l l' y : Forall2 R l l' -> In y l' -> exists x, In x l /\ R x y.
Proof.
  intros F. induction F; intros []; subst.
  - eexists; split; [now left|assumption].
  - destruct IHF as (z & G1 & G2); [assumption|]. exists z. split; [now right|exact G2].
Qed.

Lemma version_typed_same r r' : range_same r r' -> version_typed r -> version_typed r'.
Proof. intros [E _]. unfold version_typed. now rewrite E. Qed.

Lemma ranges_cover_same cmp rs rs' v :
  Forall2 range_same rs rs' -> ranges_cover cmp rs v -> ranges_cover cmp rs' v.
Proof.
  intros F. induction F as [|r r' rs rs' Hr F IH]; intros H.
  - exact H.
  - apply ranges_cover_cons in H as [H1 H2]. apply ranges_cover_cons.
    split; [now apply (version_typed_same r)|]. destruct H2 as [H2|H2]; [left|right; auto].
    destruct Hr as [_ P]. now apply (in_range_perm _ _ _ _ P).
Qed.

Lemma Forall2_nil_iff {A B} (R : A -> B -> Prop) l l' : Forall2 R l l' -> l <> [] -> l' <> [].
Proof. intros F H. destruct F; [contradiction|discriminate]. Qed.

Lemma entry_affects_same sem a a' pkg : affected_same a a' -> entry_affects sem a pkg -> entry_affects sem a' pkg.
Proof.
  intros (E1 & E2 & F) (H1 & H2 & H3 & H4). unfold entry_affects. rewrite <- E1, <- E2.
  split; [exact H1|]. split; [exact H2|]. split.
  - destruct H3; [left|right; assumption]. now apply (Forall2_nil_iff _ _ _ F).
  - destruct H4 as [H4|[H4|H4]]; auto. right; right. now apply (ranges_cover_same _ _ _ _ F).
Qed.

Lemma osv_affects_same sem o o' pkg : osv_same o o' -> osv_affects sem o pkg -> osv_affects sem o' pkg.
Proof.
  intros [] (a & Ha & H). destruct (Forall2_in_l _ _ _ a os_affected Ha) as (a' & Ha' & Hs).
  exists a'. split; [exact Ha'|]. now apply (entry_affects_same sem a).
Qed.

Lemma wf_osv_same sem eco o o' : osv_same o o' -> wf_osv sem eco o -> wf_osv sem eco o'.
Proof.
  intros [] H a' r' Ha' Hr'. destruct (Forall2_in_r _ _ _ a' os_affected Ha') as (a & Ha & E1 & E2 & F).
  destruct (Forall2_in_r _ _ _ r' F Hr') as (r & Hr & E & P).
  destruct (H a r Ha Hr) as [W Q]. split; [now apply (wf_events_perm _ _ _ P)|now apply (parseable_perm _ _ _ _ P)].
Qed.

Lemma related_same a a' b b' : osv_same a a' -> osv_same b b' -> related a b -> related a' b'.
Proof. intros [A1 A2 _ _ _ _ _ _] [B1 B2 _ _ _ _ _ _]. unfold related. rewrite A1, A2, B1, B2. exact (fun H => H). Qed.

(** ** frame: checking only reorders events *)
Lemma affects_version_frame S sem rs pkg b rs' :
  SorterOk S -> affects_version S sem rs pkg = Ok (b, rs') -> Forall2 range_same rs rs'.
Proof.
  intros HS. revert b rs'. induction rs as [|r rs IH]; intros b rs' H; cbn in H.
  - injection H as <- <-. constructor.
  - destruct (_ && _); [injection H as <- <-; apply ranges_same_refl|].
    destruct (contains_version S sem r pkg) as [[b1 r1]|] eqn:E; [|discriminate]. cbn in H.
    apply contains_version_frame in E; [|exact HS].
    destruct b1. { injection H as <- <-. constructor; [exact E|apply ranges_same_refl]. }
    destruct (affects_version S sem rs pkg) as [[b2 rs2]|]; [|discriminate]. cbn in H.
    injection H as <- <-. constructor; [exact E|]. eapply IH; reflexivity.
Qed.

Lemma affected_loop_frame S sem l pkg b l' :
  SorterOk S -> affected_loop S sem l pkg = Ok (b, l') -> Forall2 affected_same l l'.
Proof.
  intros HS. revert b l'. induction l as [|a l IH]; intros b l' H; cbn [affected_loop] in H.
  - injection H as <- <-. constructor.
  - assert (Next : forall a', affected_same a a' ->
      rbind (affected_loop S sem l pkg) (fun '(b, l'') => Ok (b, a' :: l'')) = Ok (b, l') ->
      Forall2 affected_same (a :: l) l').
    { intros a' Ha E. destruct (affected_loop S sem l pkg) as [[b2 l2]|]; [|discriminate].
      cbn in E. injection E as <- <-. constructor; [exact Ha|]. eapply IH; reflexivity. }
    destruct (_ && _) in H; [|now apply Next with a; [apply affected_same_refl|]].
    destruct (_ && _) in H; [now apply Next with a; [apply affected_same_refl|]|].
    destruct (mem _ _) in H. { injection H as <- <-. apply affecteds_same_refl. }
    destruct (affects_version S sem (a_ranges a) pkg) as [[b1 rs1]|] eqn:E; [|discriminate].
    apply affects_version_frame in E; [|exact HS]. cbn [rbind] in H.
    assert (Hs : affected_same a (mkAff (a_pkg a) (a_versions a) rs1)) by (repeat split; auto).
    destruct b1. { injection H as <- <-. constructor; [exact Hs|apply affecteds_same_refl]. }
    destruct (seqb _ _) in H. { injection H as <- <-. constructor; [exact Hs|apply affecteds_same_refl]. }
    eapply Next; eauto.
Qed.

Lemma is_affected_frame S sem o pkg b o' :
  SorterOk S -> is_affected S sem o pkg = Ok (b, o') -> osv_same o o'.
Proof.
  intros HS H. unfold is_affected in H.
  destruct (affected_loop S sem (o_affected o) pkg) as [[b1 l]|] eqn:E; [|discriminate].
  cbn in H. injection H as <- <-. apply affected_loop_frame in E; [|exact HS].
  constructor; try reflexivity. exact E.
Qed.

(** ** maps *)
Lemma map_get_set {A} k k' (v : A) m : map_get k (map_set k' v m) = if seqb k' k then Some v else map_get k m.
Proof.
  induction m as [|[k0 v0] m IH]; cbn.
  - reflexivity.
  - destruct (seqb_spec k0 k') as [->|N]; cbn.
    + destruct (seqb k' k); reflexivity.
    + destruct (seqb_spec k0 k) as [->|N'].
      * destruct (seqb_spec k' k); [congruence|reflexivity].
      * exact IH.
Qed.

Definition get_or (k : string) (m : list (string * list nat)) : list nat :=
  match map_get k m with Some l => l | None => [] end.

Lemma get_or_add k addr m a :
  get_or k (add_to_bucket addr m a) = if seqb (store_hash a) k then get_or k m ++ [addr] else get_or k m.
Proof.
  unfold get_or, add_to_bucket. rewrite map_get_set.
  destruct (seqb_spec (store_hash a) k) as [->|]; reflexivity.
Qed.

Definition hits (k : string) (o : OSV) : nat :=
  List.length (filter (fun a => seqb (store_hash a) k) (o_affected o)).

Lemma get_or_add_all k addr l m :
  get_or k (fold_left (add_to_bucket addr) l m) =
  get_or k m ++ repeat addr (List.length (filter (fun a => seqb (store_hash a) k) l)).
Proof.
  revert m. induction l as [|a l IH]; intros m; cbn.
  - now rewrite app_nil_r.
  - rewrite IH, get_or_add. destruct (seqb (store_hash a) k); cbn; [|reflexivity].
    now rewrite <- app_assoc.
Qed.

Definition keep (names : list string) (o : OSV) : bool :=
  Nat.eqb (List.length names) 0 || might_affect_packages o names.

Fixpoint block (k : string) (n : nat) (os : list OSV) : list nat :=
  match os with [] => [] | o :: os' => repeat n (hits k o) ++ block k (S n) os' end.

Lemma block_app k n os os' : block k n (os ++ os') = block k n os ++ block k (n + List.length os) os'.
Proof.
  revert n. induction os as [|o os IH]; intros n; cbn.
  - now rewrite Nat.add_0_r.
  - rewrite IH, <- app_assoc. do 2 f_equal. f_equal. lia.
Qed.

Lemma load_all_spec names os :
  m_heap (load_all names os) = filter (keep names) os
  /\ m_count (load_all names os) = List.length os
  /\ (forall k, get_or k (m_vulns (load_all names os)) = block k 0 (filter (keep names) os)).
Proof.
  unfold load_all. induction os as [|o os IH] using rev_ind; [repeat split|].
  rewrite fold_left_app. cbn [fold_left].
  set (db := fold_left _ os empty_db) in *. destruct IH as (H1 & H2 & H3).
  rewrite filter_app. cbn [filter]. unfold add_vulnerability.
  assert (K : negb (Nat.eqb (List.length names) 0) && negb (might_affect_packages o names) = negb (keep names o)).
  { unfold keep. now rewrite negb_orb. }
  rewrite K. destruct (keep names o); cbn [negb m_heap m_count m_vulns].
  - rewrite H1. split; [reflexivity|]. split; [rewrite H2, app_length; cbn; lia|].
    intros k. rewrite get_or_add_all, H3, block_app. cbn [block].
    rewrite app_nil_r, Nat.add_0_l. reflexivity.
  - rewrite app_nil_r. split; [exact H1|]. split; [rewrite H2, app_length; cbn; lia|exact H3].
Qed.

(** ** the bucket loop *)
Lemma heap_set_length h i o : List.length (heap_set h i o) = List.length h.
Proof. revert i. induction h as [|x h IH]; intros [|i]; cbn; auto. Qed.

Lemma Forall2_heap_set (R : OSV -> OSV -> Prop) os h i o :
  Forall2 R os h -> R (nth i os no_osv) o -> Forall2 R os (heap_set h i o).
Proof.
  intros F. revert i. induction F as [|x y os h H F IH]; intros i G.
  - constructor.
  - destruct i; cbn in *; constructor; auto.
Qed.

Lemma Forall2_nth {A B} (R : A -> B -> Prop) l l' i d d' :
  Forall2 R l l' -> R d d' -> R (nth i l d) (nth i l' d').
Proof. intros F H. revert i. induction F; intros [|i]; cbn; auto. Qed.

Section Bucket.
Variables (S : Sorter) (sem : Semantic) (pkg : Pkg) (os : list OSV).
Hypothesis HS : SorterOk S.
Hypothesis CK : checkable sem os pkg.

Definition wanted (o : OSV) : Prop := o_withdrawn o = None /\ osv_affects sem o pkg.

Lemma includes_same k acc o v :
  Forall2 osv_same k acc -> osv_same o v -> (includes acc v = true <-> exists x, In x k /\ related x o).
Proof.
  intros F Hs. rewrite includes_iff. split.
  - intros (y & Hy & R). destruct (Forall2_in_r _ _ _ y F Hy) as (x & Hx & E).
    exists x. split; [exact Hx|]. apply (related_same y x v o); auto using osv_same_sym.
  - intros (x & Hx & R). destruct (Forall2_in_l _ _ _ x F Hx) as (y & Hy & E).
    exists y. split; [exact Hy|]. apply (related_same x y o v); auto.
Qed.

Lemma bucket_one h i rest acc k :
  Forall2 osv_same os h -> i < List.length os -> Forall2 osv_same k acc ->
  let o := nth i os no_osv in
  exists h' acc' k', bucket_loop S sem pkg h (i :: rest) acc = bucket_loop S sem pkg h' rest acc'
    /\ Forall2 osv_same os h' /\ Forall2 osv_same k' acc'
    /\ ((wanted o /\ (forall x, In x k -> ~ related x o) /\ k' = k ++ [o])
        \/ (wanted o /\ (exists x, In x k /\ related x o) /\ k' = k)
        \/ (~ wanted o /\ k' = k)).
Proof.
  intros F Hi Fk o. cbn [bucket_loop].
  assert (Hv : osv_same o (deref h i)).
  { apply (Forall2_nth osv_same); [exact F|apply osv_same_refl]. }
  set (v := deref h i) in *.
  destruct (o_withdrawn v) eqn:Ew.
  - exists h, acc, k. split; [reflexivity|]. split; [exact F|]. split; [exact Fk|].
    right; right. split; [|reflexivity]. intros [W _]. destruct Hv. congruence.
  - destruct CK as [VO Hok Hwf].
    assert (Wo : wf_osv sem (p_cmp pkg) o).
    { rewrite Forall_forall in Hwf. apply Hwf. now apply nth_In. }
    destruct (is_affected_spec S sem v pkg HS VO (wf_osv_same _ _ _ _ Hv Wo) Hok) as (b & v' & E & Hs & Hb).
    rewrite E. cbn [rbind].
    assert (Hov : osv_same o v') by (now apply osv_same_trans with v).
    assert (F' : Forall2 osv_same os (heap_set h i v')) by (now apply Forall2_heap_set).
    assert (Wd : o_withdrawn o = None) by (destruct Hv; congruence).
    destruct b; cbn [andb].
    + assert (Wn : wanted o).
      { split; [exact Wd|]. apply (osv_affects_same sem v); [now apply osv_same_sym|]. now apply Hb. }
      destruct (includes acc v') eqn:Ei; cbn [negb].
      * exists (heap_set h i v'), acc, k. split; [reflexivity|]. split; [exact F'|]. split; [exact Fk|].
        right; left. split; [exact Wn|]. split; [|reflexivity]. now apply (includes_same k acc o v').
      * exists (heap_set h i v'), (acc ++ [v']), (k ++ [o]). split; [reflexivity|]. split; [exact F'|].
        split; [apply Forall2_app; [exact Fk|]; constructor; [exact Hov|constructor]|].
        left. split; [exact Wn|]. split; [|reflexivity]. intros x Hx R.
        assert (includes acc v' = true) by (apply (includes_same k acc o v'); eauto). congruence.
    + exists (heap_set h i v'), acc, k. split; [reflexivity|]. split; [exact F'|]. split; [exact Fk|].
      right; right. split; [|reflexivity]. intros [_ W].
      assert (false = true) by (apply Hb; now apply (osv_affects_same sem o)). discriminate.
Qed.

(** repeated entries of the same advisory change nothing *)
Lemma bucket_again h i n rest acc k :
  Forall2 osv_same os h -> i < List.length os -> Forall2 osv_same k acc ->
  (wanted (nth i os no_osv) -> exists x, In x k /\ related x (nth i os no_osv)) ->
  exists h', bucket_loop S sem pkg h (repeat i n ++ rest) acc = bucket_loop S sem pkg h' rest acc
    /\ Forall2 osv_same os h'.
Proof.
  intros F Hi Fk Hset. revert h acc F Fk. induction n as [|n IH]; intros h acc F Fk; [eauto|].
  cbn [repeat app].
  (* the accumulator itself is unchanged: replay one step *)
  cbn [bucket_loop].
  assert (Hv : osv_same (nth i os no_osv) (deref h i)).
  { apply (Forall2_nth osv_same); [exact F|apply osv_same_refl]. }
  destruct (o_withdrawn (deref h i)) eqn:Ew; [now apply IH|].
  destruct CK as [VO Hok Hwf].
  assert (Wo : wf_osv sem (p_cmp pkg) (nth i os no_osv)).
  { rewrite Forall_forall in Hwf. apply Hwf. now apply nth_In. }
  destruct (is_affected_spec S sem (deref h i) pkg HS VO (wf_osv_same _ _ _ _ Hv Wo) Hok) as (b & v' & E & Hs & Hb).
  rewrite E. cbn [rbind].
  assert (Hov : osv_same (nth i os no_osv) v') by (now apply osv_same_trans with (deref h i)).
  assert (F' : Forall2 osv_same os (heap_set h i v')) by (now apply Forall2_heap_set).
  destruct b; cbn [andb]; [|now apply IH].
  assert (Hi' : includes acc v' = true).
  { apply (includes_same k acc (nth i os no_osv) v'); auto. apply Hset. split.
    - destruct Hv; congruence.
    - apply (osv_affects_same sem (deref h i)); [now apply osv_same_sym|]. now apply Hb. }
  rewrite Hi'. now apply IH.
Qed.
End Bucket.

Lemma selects_app {A} (P : A -> Prop) l1 s1 l2 s2 : selects P l1 s1 -> selects P l2 s2 -> selects P (l1 ++ l2) (s1 ++ s2).
Proof. intros H1 H2. induction H1; cbn; [exact H2|constructor; auto|apply sel_skip; auto]. Qed.

Lemma bucket_all S sem pkg os key :
  SorterOk S -> checkable sem os pkg ->
  (forall o, In o os -> hits key o = 0 -> ~ osv_affects sem o pkg) ->
  forall post pre h acc sel k, os = pre ++ post ->
  Forall2 osv_same os h -> selects (wanted sem pkg) pre sel -> dedup_of sel k -> Forall2 osv_same k acc ->
  exists vs h', bucket_loop S sem pkg h (block key (List.length pre) post) acc = Ok (vs, h')
    /\ Forall2 osv_same os h' /\ reported sem os pkg vs.
Proof.
  intros HS CK Hz. induction post as [|o post IH]; intros pre h acc sel k E F Hsel Hd Fk.
  - cbn [block bucket_loop]. rewrite app_nil_r in E. subst pre.
    exists acc, h. split; [reflexivity|]. split; [exact F|]. exists sel, k. auto.
  - cbn [block].
    assert (E' : os = (pre ++ [o]) ++ post) by (now rewrite <- app_assoc).
    assert (Ln : Datatypes.S (List.length pre) = List.length (pre ++ [o])) by (rewrite app_length; cbn; lia).
    assert (Hi : List.length pre < List.length os) by (rewrite E, app_length; cbn; lia).
    assert (No : nth (List.length pre) os no_osv = o).
    { rewrite E. rewrite app_nth2 by lia. now rewrite Nat.sub_diag. }
    destruct (hits key o) as [|n] eqn:Eh.
    + cbn [repeat app]. rewrite Ln. apply IH with (sel := sel ++ []) (k := k); auto.
      * apply selects_app; [exact Hsel|]. apply sel_skip; [|constructor].
        intros [_ W]. revert W. apply Hz; [rewrite E; apply in_or_app; right; now left|exact Eh].
      * now rewrite app_nil_r.
    + cbn [repeat app].
      destruct (bucket_one S sem pkg os HS CK h (List.length pre)
        (repeat (List.length pre) n ++ block key (Datatypes.S (List.length pre)) post) acc k F Hi Fk)
        as (h1 & acc1 & k1 & Eb & F1 & Fk1 & Cases).
      rewrite Eb. rewrite No in Cases.
      destruct (bucket_again S sem pkg os HS CK h1 (List.length pre) n
        (block key (Datatypes.S (List.length pre)) post) acc1 k1 F1 Hi Fk1) as (h2 & Eb2 & F2).
      { rewrite No. intros W. destruct Cases as [(_ & _ & ->)|[(_ & X & ->)|(N & _)]]; [|exact X|contradiction].
        exists o. split; [apply in_or_app; right; now left|left; reflexivity]. }
      rewrite Eb2, Ln.
      destruct Cases as [(W & C & ->)|[(W & (x & Hx & R) & ->)|(N & ->)]].
      * apply IH with (sel := sel ++ [o]) (k := k ++ [o]); auto.
        -- apply selects_app; [exact Hsel|]. constructor; [exact W|constructor].
        -- now constructor.
      * apply IH with (sel := sel ++ [o]) (k := k); auto.
        -- apply selects_app; [exact Hsel|]. constructor; [exact W|constructor].
        -- econstructor; eauto.
      * apply IH with (sel := sel) (k := k); auto.
        rewrite <- (app_nil_r sel). apply selects_app; [exact Hsel|]. apply sel_skip; [exact N|constructor].
Qed.

(** ** the key of an affected package is its bucket *)
Lemma no_suffix_parts e : has_char ":" e = false -> eco_parts e e "".
Proof. intros H. right. auto. Qed.

Lemma affects_hits sem o pkg : has_char ":" (p_eco pkg) = false -> osv_affects sem o pkg ->
  hits (p_eco pkg +s+ "-" +s+ p_name pkg) o <> 0.
Proof.
  intros Hc (a & Ha & H1 & H2 & _) E.
  assert (In a (filter (fun a => seqb (store_hash a) (p_eco pkg +s+ "-" +s+ p_name pkg)) (o_affected o))).
  { apply filter_In. split; [exact Ha|]. apply seqb_eq. unfold store_hash.
    apply match_name_fun in H2. rewrite <- H2. f_equal.
    destruct H1 as (ba & sa & bb & sb & P1 & P2 & Eb & _).
    unfold normalized_ecosystem. destruct (eco_parts_fun _ _ _ _ _ P1 (eco_parts_cut _)) as [<- _].
    destruct (eco_parts_fun _ _ _ _ _ P2 (no_suffix_parts _ Hc)) as [<- _].
    exact Eb. }
  unfold hits in E. destruct (filter _ (o_affected o)); [contradiction|discriminate].
Qed.

Lemma selects_filter {A} (P : A -> Prop) f l sel :
  (forall x, In x l -> f x = false -> ~ P x) -> selects P (filter f l) sel -> selects P l sel.
Proof.
  revert sel. induction l as [|x l IH]; cbn; intros sel H Hs; [exact Hs|].
  destruct (f x) eqn:E.
  - inversion Hs; subst; [constructor|apply sel_skip]; auto.
  - apply sel_skip; [now apply H; [left|]|]. apply IH; auto.
Qed.

Lemma affects_keep sem o pkg names :
  names = [] \/ In (p_name pkg) names -> osv_affects sem o pkg -> keep names o = true.
Proof.
  intros [->|Hn] (a & Ha & _ & H2 & _); [reflexivity|].
  unfold keep. apply orb_true_iff. right. unfold might_affect_packages. apply existsb_exists.
  exists a. split; [exact Ha|]. apply mem_iff. apply match_name_fun in H2. now rewrite <- H2.
Qed.

Lemma Forall_filter {A} (P : A -> Prop) f l : Forall P l -> Forall P (filter f l).
Proof.
  rewrite !Forall_forall. intros H x Hx. apply filter_In in Hx as [Hx _]. auto.
Qed.

(** a database in any state reachable by checks *)
Record db_state (names : list string) (os : list OSV) (db : memDB) : Prop := {
  ds_heap : Forall2 osv_same (filter (keep names) os) (m_heap db);
  ds_vulns : m_vulns db = m_vulns (load_all names os);
  ds_count : m_count db = m_count (load_all names os)
}.

Lemma db_state_load names os : db_state names os (load_all names os).
Proof.
  destruct (load_all_spec names os) as (H1 & _). constructor; try reflexivity.
  rewrite H1. apply Forall2_refl, osv_same_refl.
Qed.

Lemma affecting_as_loop S sem db pkg :
  vulnerabilities_affecting S sem db pkg =
  rbind (bucket_loop S sem pkg (m_heap db) (get_or (p_eco pkg +s+ "-" +s+ p_name pkg) (m_vulns db)) [])
        (fun '(vs, h) => Ok (vs, mkDB h (m_vulns db) (m_count db))).
Proof.
  unfold vulnerabilities_affecting, get_or. destruct (map_get _ _); [reflexivity|].
  cbn. now destruct db.
Qed.

Lemma affecting_spec S sem names os db pkg :
  SorterOk S -> checkable sem os pkg -> db_state names os db ->
  names = [] \/ In (p_name pkg) names -> has_char ":" (p_eco pkg) = false ->
  exists vs db', vulnerabilities_affecting S sem db pkg = Ok (vs, db')
    /\ db_state names os db' /\ reported sem os pkg vs.
Proof.
  intros HS [VO Hok Hwf] [Dh Dv Dc] Hn Hc. rewrite affecting_as_loop.
  rewrite Dv. destruct (load_all_spec names os) as (_ & _ & Hb). rewrite Hb.
  destruct (bucket_all S sem pkg (filter (keep names) os) (p_eco pkg +s+ "-" +s+ p_name pkg) HS
     (Build_checkable _ _ _ VO Hok (Forall_filter _ _ _ Hwf)))
     with (post := filter (keep names) os) (pre := @nil OSV) (h := m_heap db) (acc := @nil OSV) (sel := @nil OSV) (k := @nil OSV)
     as (vs & h' & E & F & sel & k & Hsel & Hd & Fk); auto; try constructor.
  { intros o _ Eh Ha. exact (affects_hits _ _ _ Hc Ha Eh). }
  cbn [List.length] in E. rewrite E. cbn [rbind].
  exists vs, (mkDB h' (m_vulns (load_all names os)) (m_count db)). split; [reflexivity|].
  split; [constructor; auto|].
  exists sel, k. split; [|auto].
  apply selects_filter with (f := keep names); [|exact Hsel].
  intros o _ Ek [_ Ha]. now rewrite (affects_keep sem o pkg names Hn Ha) in Ek.
Qed.

(** state only ever changes by reordering events, whatever is checked *)
Lemma bucket_frame S sem pkg os : SorterOk S ->
  forall addrs h acc vs h', Forall2 osv_same os h ->
  bucket_loop S sem pkg h addrs acc = Ok (vs, h') -> Forall2 osv_same os h'.
Proof.
  intros HS. induction addrs as [|i addrs IH]; intros h acc vs h' F H; cbn [bucket_loop] in H.
  - injection H as <- <-. exact F.
  - destruct (o_withdrawn (deref h i)); [eapply IH; eauto|].
    destruct (is_affected S sem (deref h i) pkg) as [[b v']|] eqn:E; [|discriminate]. cbn [rbind] in H.
    apply is_affected_frame in E; [|exact HS].
    assert (F' : Forall2 osv_same os (heap_set h i v')).
    { apply Forall2_heap_set; [exact F|]. apply osv_same_trans with (deref h i); [|exact E].
      apply (Forall2_nth osv_same); [exact F|apply osv_same_refl]. }
    destruct (_ && _) in H; eapply IH; eauto.
Qed.

Lemma affecting_frame S sem names os db pkg vs db' :
  SorterOk S -> db_state names os db -> vulnerabilities_affecting S sem db pkg = Ok (vs, db') ->
  db_state names os db'.
Proof.
  intros HS [Dh Dv Dc] H. rewrite affecting_as_loop in H.
  destruct (bucket_loop S sem pkg (m_heap db) _ []) as [[vs1 h1]|] eqn:E; [|discriminate].
  cbn in H. injection H as <- <-. constructor; auto. cbn. eapply bucket_frame; eauto.
Qed.

Lemma check_frame S sem names os pkgs : SorterOk S -> forall db rs db',
  db_state names os db -> check S sem db pkgs = Ok (rs, db') ->
  db_state names os db' /\ List.length rs = List.length pkgs.
Proof.
  intros HS. induction pkgs as [|p pkgs IH]; intros db rs db' D H; cbn in H.
  - injection H as <- <-. auto.
  - destruct (vulnerabilities_affecting S sem db p) as [[vs db1]|] eqn:E; [|discriminate]. cbn in H.
    apply (affecting_frame _ _ _ _ _ _ _ _ HS D) in E.
    destruct (check S sem db1 pkgs) as [[rest db2]|] eqn:E2; [|discriminate]. cbn in H.
    injection H as <- <-. destruct (IH _ _ _ E E2) as [D2 L]. split; [exact D2|]. cbn. now rewrite L.
Qed.

Lemma check_spec S sem names os pkgs : SorterOk S -> forall db,
  db_state names os db ->
  Forall (fun p => checkable sem os p /\ (names = [] \/ In (p_name p) names) /\ has_char ":" (p_eco p) = false) pkgs ->
  exists rs db', check S sem db pkgs = Ok (rs, db') /\ db_state names os db'
    /\ Forall2 (reported sem os) pkgs rs.
Proof.
  intros HS. induction pkgs as [|p pkgs IH]; intros db D H; cbn.
  - exists [], db. split; [reflexivity|]. split; [exact D|constructor].
  - inversion H as [|? ? (C & Hn & Hc) H']; subst.
    destruct (affecting_spec S sem names os db p HS C D Hn Hc) as (vs & db1 & -> & D1 & R). cbn.
    destruct (IH db1 D1 H') as (rs & db2 & -> & D2 & F). cbn.
    exists (vs :: rs), db2. split; [reflexivity|]. split; [exact D2|]. constructor; assumption.
Qed.

(** results with an ecosystem suffix *)
Lemma bucket_unaffected S sem pkg os : SorterOk S -> forall addrs h acc vs h',
  (forall i o, In i addrs -> osv_same (nth i os no_osv) o ->
     forall b o', is_affected S sem o pkg = Ok (b, o') -> b = false) ->
  Forall2 osv_same os h ->
  bucket_loop S sem pkg h addrs acc = Ok (vs, h') -> vs = acc.
Proof.
  intros HS. induction addrs as [|i addrs IH]; intros h acc vs h' N F H; cbn [bucket_loop] in H.
  - now injection H.
  - destruct (o_withdrawn (deref h i)); [eapply IH; eauto; intros; eapply N; eauto; now right|].
    destruct (is_affected S sem (deref h i) pkg) as [[b v']|] eqn:E; [|discriminate]. cbn [rbind] in H.
    assert (Hd : osv_same (nth i os no_osv) (deref h i)).
    { apply (Forall2_nth osv_same); [exact F|apply osv_same_refl]. }
    rewrite (N i (deref h i) (or_introl eq_refl) Hd _ _ E) in H. cbn [andb] in H.
    apply is_affected_frame in E; [|exact HS].
    eapply IH in H; [exact H| |].
    + intros j o Hj. apply N. now right.
    + apply Forall2_heap_set; [exact F|]. now apply osv_same_trans with (deref h i).
Qed.

Lemma affected_loop_nomatch S sem l pkg b l' :
  (forall a, In a l -> ecosystems_equal (op_eco (a_pkg a)) (p_eco pkg)
         && seqb (normalized_name (a_pkg a)) (p_name pkg) = false) ->
  affected_loop S sem l pkg = Ok (b, l') -> b = false.
Proof.
  revert b l'. induction l as [|a l IH]; intros b l' N H; cbn [affected_loop] in H.
  - now injection H.
  - rewrite (N a (or_introl eq_refl)) in H.
    destruct (affected_loop S sem l pkg) as [[b1 l1]|]; [|discriminate]. cbn in H. injection H as <- <-.
    eapply IH; [|reflexivity]. intros x Hx. apply N. now right.
Qed.

(** ** suffixed ecosystems have no bucket *)
Lemma suffix_key_absent base suf name nb nn :
  has_char ":" base = false -> has_char "-" base = false -> has_char ":" nb = false ->
  (base +s+ ":" +s+ suf) +s+ "-" +s+ name <> nb +s+ "-" +s+ nn.
Proof.
  revert nb. induction base as [|c base IH]; intros nb H1 H2 H3 E.
  - destruct nb as [|d nb]; cbn in E; [discriminate|]. injection E as E1 E2. subst d. cbn in H3. discriminate.
  - cbn in H1, H2. apply orb_false_iff in H1 as [N1 H1]. apply orb_false_iff in H2 as [N2 H2].
    destruct nb as [|d nb]; cbn in E.
    + injection E as E1 E2. subst c. discriminate.
    + injection E as E1 E2. subst d. cbn in H3. apply orb_false_iff in H3 as [_ H3].
      exact (IH nb H1 H2 H3 E2).
Qed.

Lemma normalized_ecosystem_nocolon p : has_char ":" (normalized_ecosystem p) = false.
Proof.
  unfold normalized_ecosystem. destruct (eco_parts_cut (op_eco p)) as [[H _]|[H [E _]]]; [exact H|congruence].
Qed.

Lemma hits_zero k o : (forall a, In a (o_affected o) -> store_hash a <> k) -> hits k o = 0.
Proof.
  intros H. unfold hits. induction (o_affected o) as [|a l IH]; cbn; [reflexivity|].
  destruct (seqb_spec (store_hash a) k) as [E|E].
  - exfalso. now apply (H a (or_introl eq_refl)).
  - apply IH. intros x Hx. apply H. now right.
Qed.

Lemma block_zero k n os : (forall o, In o os -> hits k o = 0) -> block k n os = [].
Proof.
  revert n. induction os as [|o os IH]; intros n H; cbn; [reflexivity|].
  rewrite (H o (or_introl eq_refl)). cbn. apply IH. intros x Hx. apply H. now right.
Qed.

Lemma suffixed_never S sem names os db pkg base suf :
  db_state names os db -> p_eco pkg = base +s+ ":" +s+ suf ->
  has_char ":" base = false -> has_char "-" base = false ->
  vulnerabilities_affecting S sem db pkg = Ok ([], db).
Proof.
  intros [Dh Dv Dc] E H1 H2. rewrite affecting_as_loop, Dv.
  destruct (load_all_spec names os) as (_ & _ & Hb). rewrite Hb.
  rewrite block_zero.
  - cbn. rewrite <- Dv. now destruct db.
  - intros o _. apply hits_zero. intros a _ Eh. rewrite E in Eh. unfold store_hash in Eh. symmetry in Eh.
    revert Eh. apply suffix_key_absent; auto using normalized_ecosystem_nocolon.
Qed.

(** ** Vulnerabilities *)
Lemma map_set_keys {A} k (v : A) m x : In x (map fst (map_set k v m)) <-> x = k \/ In x (map fst m).
Proof.
  induction m as [|[k0 v0] m IH]; cbn.
  - intuition.
  - destruct (seqb_spec k0 k) as [->|N]; cbn; [intuition|]. rewrite IH. intuition.
Qed.
Lemma map_set_nodup {A} k (v : A) m : NoDup (map fst m) -> NoDup (map fst (map_set k v m)).
Proof.
  induction m as [|[k0 v0] m IH]; cbn; intros H.
  - constructor; [intros []|constructor].
  - inversion H as [|? ? H1 H2]; subst. destruct (seqb_spec k0 k) as [->|N]; cbn.
    + now constructor.
    + constructor; [|auto]. rewrite map_set_keys. intros [->|C]; [now apply N|contradiction].
Qed.
Lemma map_get_in {A} k (v : A) m : NoDup (map fst m) -> (map_get k m = Some v <-> In (k, v) m).
Proof.
  induction m as [|[k0 v0] m IH]; cbn; intros H; [split; [discriminate|intros []]|].
  inversion H as [|? ? H1 H2]; subst. destruct (seqb_spec k0 k) as [->|N].
  - split; [intros E; injection E as ->; now left|]. intros [E|E]; [now injection E as ->|].
    exfalso. apply H1. change k with (fst (k, v)). now apply in_map.
  - rewrite (IH H2). split; [now right|]. intros [E|E]; [|exact E]. injection E as -> ->. now elim N.
Qed.

Lemma load_all_nodup names os : NoDup (map fst (m_vulns (load_all names os))).
Proof.
  unfold load_all. induction os as [|o os IH] using rev_ind; [constructor|].
  rewrite fold_left_app. cbn [fold_left]. set (db := fold_left _ os empty_db) in *.
  unfold add_vulnerability. destruct (_ && _); [exact IH|]. cbn [m_vulns].
  generalize (m_vulns db) IH. clear. intros m. induction (o_affected o) as [|a l IHl] in m |- *; cbn; [auto|].
  intros H. apply IHl. unfold add_to_bucket. now apply map_set_nodup.
Qed.

Lemma block_in k i n os : In i (block k n os) <-> n <= i < n + List.length os /\ hits k (nth (i - n) os no_osv) <> 0.
Proof.
  revert n. induction os as [|o os IH]; intros n; cbn [block List.length].
  - cbn. split; [intros []|lia].
  - rewrite in_app_iff, IH. split.
    + intros [H|[H1 H2]].
      * assert (i = n) by (now apply repeat_spec in H). subst i. rewrite Nat.sub_diag. cbn.
        split; [lia|]. intros E. rewrite E in H. destruct H.
      * split; [lia|]. replace (i - n) with (S (i - S n)) by lia. exact H2.
    + intros [H1 H2]. destruct (Nat.eq_dec i n) as [->|N].
      * left. rewrite Nat.sub_diag in H2. cbn in H2. destruct (hits k o); [contradiction|now left].
      * right. split; [lia|]. replace (i - n) with (S (i - S n)) in H2 by lia. exact H2.
Qed.

Lemma bucket_members names os i :
  In i (flat_map snd (m_vulns (load_all names os))) <->
  i < List.length (filter (keep names) os) /\ o_affected (nth i (filter (keep names) os) no_osv) <> [].
Proof.
  destruct (load_all_spec names os) as (_ & _ & Hb).
  pose proof (load_all_nodup names os) as ND.
  rewrite in_flat_map. split.
  - intros ([k l] & H1 & H2). cbn in H2. apply (map_get_in _ _ _ ND) in H1.
    specialize (Hb k). unfold get_or in Hb. rewrite H1 in Hb. rewrite Hb in H2.
    apply block_in in H2 as [H2 H3]. split; [lia|]. rewrite Nat.sub_0_r in H3.
    intros E. unfold hits in H3. rewrite E in H3. now apply H3.
  - intros [H1 H2]. destruct (o_affected (nth i (filter (keep names) os) no_osv)) as [|a l] eqn:E; [contradiction|].
    specialize (Hb (store_hash a)).
    assert (Hi : In i (get_or (store_hash a) (m_vulns (load_all names os)))).
    { rewrite Hb. apply block_in. split; [lia|]. rewrite Nat.sub_0_r. unfold hits. rewrite E. cbn.
      rewrite seqb_refl. discriminate. }
    unfold get_or in Hi. destruct (map_get _ _) as [l0|] eqn:Eg; [|destruct Hi].
    exists (store_hash a, l0). split; [now apply (map_get_in _ _ _ ND)|exact Hi].
Qed.

Definition listable (incl : bool) (o : OSV) : Prop := o_withdrawn o = None \/ incl = true.

Lemma list_loop h incl addrs :
  let '(vs, ids) := fold_left (list_step h incl) addrs ([], []) in
  (forall x, In x ids <-> In x (map o_id vs)) /\ NoDup (map o_id vs)
  /\ (forall v, In v vs -> exists i, In i addrs /\ v = deref h i /\ listable incl v)
  /\ (forall i, In i addrs -> listable incl (deref h i) -> In (o_id (deref h i)) (map o_id vs)).
Proof.
  induction addrs as [|i addrs IH] using rev_ind.
  - cbn. repeat split; try (intros []); try contradiction. constructor.
  - rewrite fold_left_app. cbn [fold_left].
    destruct (fold_left (list_step h incl) addrs ([], [])) as [vs ids]. destruct IH as (I1 & I2 & I3 & I4).
    unfold list_step. set (v := deref h i).
    assert (Old : forall x, In x vs -> exists j, In j (addrs ++ [i]) /\ x = deref h j /\ listable incl x).
    { intros x Hx. destruct (I3 x Hx) as (j & Hj & H). exists j. split; [apply in_or_app; now left|exact H]. }
    destruct (mem (o_id v) ids) eqn:Em.
    + apply mem_iff in Em. split; [exact I1|]. split; [exact I2|]. split; [exact Old|].
      intros j Hj L. apply in_app_or in Hj as [Hj|[<-|[]]]; [auto|]. now apply I1.
    + apply mem_false in Em.
      destruct ((match o_withdrawn v with None => true | Some _ => false end) || incl) eqn:El.
      * assert (Lv : listable incl v).
        { unfold listable. apply orb_prop in El as [El|El]; [left|now right]. now destruct (o_withdrawn v). }
        split; [|split; [|split]].
        -- intros x. rewrite map_app. cbn. rewrite in_app_iff. cbn. rewrite I1. intuition.
        -- rewrite map_app. cbn.
           apply (Permutation_NoDup (l := o_id v :: map o_id vs)); [apply Permutation_cons_append|].
           constructor; [|exact I2]. now rewrite <- I1.
        -- intros x Hx. apply in_app_or in Hx as [Hx|[<-|[]]]; [auto|].
           exists i. split; [apply in_or_app; right; now left|]. auto.
        -- intros j Hj L. rewrite map_app. apply in_or_app.
           apply in_app_or in Hj as [Hj|[<-|[]]]; [left; auto|right; now left].
      * split; [exact I1|]. split; [exact I2|]. split; [exact Old|].
        intros j Hj L. apply in_app_or in Hj as [Hj|[<-|[]]]; [auto|].
        exfalso. apply orb_false_iff in El as [E1 E2]. destruct L as [L|L]; [|congruence].
        fold v in L. rewrite L in E1. discriminate.
Qed.

Lemma vulnerabilities_spec names os db entries incl :
  db_state names os db -> Permutation entries (m_vulns db) ->
  let vs := vulnerabilities (m_heap db) entries incl in
  NoDup (map o_id vs)
  /\ (forall v, In v vs -> exists o, In o os /\ osv_same o v /\ listable incl o)
  /\ (forall o, In o os -> keep names o = true -> o_affected o <> [] -> listable incl o -> In (o_id o) (map o_id vs)).
Proof.
  intros [Dh Dv Dc] P vs. unfold vulnerabilities in vs.
  pose proof (list_loop (m_heap db) incl (flat_map snd entries)) as L.
  destruct (fold_left _ (flat_map snd entries) _) as [vs0 ids]. cbn in vs. subst vs.
  destruct L as (_ & L2 & L3 & L4).
  assert (Mem : forall i, In i (flat_map snd entries) <->
    i < List.length (filter (keep names) os) /\ o_affected (nth i (filter (keep names) os) no_osv) <> []).
  { intros i. rewrite <- bucket_members, <- Dv. rewrite !in_flat_map. split; intros (e & H1 & H2); exists e; split; auto.
    - now apply (Permutation_in _ P).
    - apply (Permutation_in _ (Permutation_sym P)); auto. }
  assert (Same : forall i, osv_same (nth i (filter (keep names) os) no_osv) (deref (m_heap db) i)).
  { intros i. apply (Forall2_nth osv_same); [exact Dh|apply osv_same_refl]. }
  split; [exact L2|]. split.
  - intros v Hv. destruct (L3 v Hv) as (i & Hi & -> & Li). apply Mem in Hi as [Hi _].
    exists (nth i (filter (keep names) os) no_osv).
    split. { assert (In (nth i (filter (keep names) os) no_osv) (filter (keep names) os)) by (now apply nth_In).
             now apply filter_In in H as [H _]. }
    split; [apply Same|]. destruct (Same i). unfold listable in *. destruct Li; [left; congruence|now right].
  - intros o Ho Hk Hne Lo.
    assert (Hin : In o (filter (keep names) os)) by (apply filter_In; auto).
    destruct (In_nth _ _ no_osv Hin) as (i & Hi & E).
    specialize (Same i). rewrite E in Same. destruct Same.
    rewrite os_id. apply L4.
    + apply Mem. rewrite E. auto.
    + unfold listable in *. destruct Lo; [left; congruence|now right].
Qed.

Lemma keep_iff names o : keep names o = true <->
  names = [] \/ exists a n, In a (o_affected o) /\ match_name (a_pkg a) n /\ In n names.
Proof.
  unfold keep. rewrite orb_true_iff, Nat.eqb_eq. unfold might_affect_packages. rewrite existsb_exists. split.
  - intros [H|(a & H1 & H2)]; [left; now destruct names|right].
    exists a, (normalized_name (a_pkg a)). split; [exact H1|]. split; [now apply match_name_fun|now apply mem_iff].
  - intros [->|(a & n & H1 & H2 & H3)]; [left; reflexivity|right].
    exists a. split; [exact H1|]. apply mem_iff. apply match_name_fun in H2. now rewrite <- H2.
Qed.

Lemma selects_fun {A} (P : A -> Prop) l s s' : selects P l s -> selects P l s' -> s = s'.
Proof.
  intros H. revert s'. induction H; intros s' H'; inversion H'; subst; try contradiction; auto.
  - f_equal. auto.
Qed.

Lemma reported_fun sem os pkg vs vs' : reported sem os pkg vs -> reported sem os pkg vs' -> Forall2 osv_same vs vs'.
Proof.
  intros (s & k & H1 & H2 & H3) (s' & k' & H1' & H2' & H3').
  rewrite (selects_fun _ _ _ _ H1' H1) in H2'. rewrite (dedup_fun _ _ _ H2' H2) in H3'.
  apply (Forall2_trans _ osv_same_trans) with k; [|exact H3'].
  now apply (Forall2_sym _ osv_same_sym).
Qed.

Lemma selects_in {A} (P : A -> Prop) l s x : selects P l s -> (In x s <-> In x l /\ P x).
Proof.
  intros H. induction H as [|y l s Hy H IH|y l s Hy H IH]; cbn.
  - intuition.
  - rewrite IH. intuition. subst; auto.
  - rewrite IH. split; [intuition|]. intros [[->|Hl] Hp]; [contradiction|auto].
Qed.

Lemma reported_props sem os pkg vs : reported sem os pkg vs ->
  (forall v, In v vs -> exists o, In o os /\ osv_same o v /\ o_withdrawn o = None /\ osv_affects sem o pkg)
  /\ (forall o, In o os -> o_withdrawn o = None -> osv_affects sem o pkg ->
        exists v, In v vs /\ (osv_same o v \/ related v o))
  /\ ForallOrdPairs (fun a b => ~ related a b) vs.
Proof.
  intros (s & k & H1 & H2 & H3).
  destruct (dedup_props _ _ H2) as (D1 & D2 & D3).
  split; [|split].
  - intros v Hv. destruct (Forall2_in_r _ _ _ v H3 Hv) as (o & Ho & E).
    apply D1 in Ho. apply (selects_in _ _ _ _ H1) in Ho as (Ho & W & A). eauto.
  - intros o Ho W A. assert (Hs : In o s) by (apply (selects_in _ _ _ _ H1); auto).
    destruct (D3 o Hs) as (x & Hx & R). destruct (Forall2_in_l _ _ _ x H3 Hx) as (v & Hv & E).
    exists v. split; [exact Hv|]. destruct R as [->|R]; [left; exact E|right].
    apply (related_same x v o o); auto using osv_same_refl.
  - clear - D2 H3. induction H3 as [|x y k vs E F IH]; [constructor|].
    inversion D2 as [|? ? D2a D2b]; subst. constructor; [|auto].
    rewrite Forall_forall in *. intros z Hz R. destruct (Forall2_in_r _ _ _ z F Hz) as (w & Hw & E2).
    apply (D2a w Hw). apply (related_same y x z w); auto using osv_same_sym.
Qed.

Lemma history_state S sem names os db db' : SorterOk S -> db_state names os db -> history S sem db db' -> db_state names os db'.
Proof.
  intros HS D H. induction H as [|db pkgs rs db1 db2 E H IH]; [exact D|].
  apply IH. now apply (check_frame _ _ _ _ _ HS _ _ _ D E).
Qed.

Lemma unique_idem l : unique (unique l) = unique l.
Proof.
  destruct (dedup_props _ _ (unique_dedup l)) as (_ & D & _).
  assert (K : forall k, ForallOrdPairs (fun a b => ~ related a b) k -> unique k = k).
  { induction k as [|v k IH] using rev_ind; intros F; [reflexivity|].
    assert (F1 : ForallOrdPairs (fun a b => ~ related a b) k /\ forall x, In x k -> ~ related x v).
    { clear IH. induction k as [|a k IHk]; [split; [constructor|intros x []]|].
      inversion F as [|? ? Fa Fb]; subst. destruct (IHk Fb) as [G1 G2]. apply Forall_app in Fa as [Fa Fv].
      split; [constructor; assumption|]. intros x [<-|Hx]; [now inversion Fv|auto]. }
    destruct F1 as [F1 F2]. rewrite unique_snoc, (IH F1).
    now rewrite (proj2 (includes_false k v) F2). }
  now apply K.
Qed.

(** ** statements of the properties *)
Lemma c07_check_one S sem names os db pkg :
  SorterOk S -> checkable sem os pkg -> history S sem (load_all names os) db ->
  names = [] \/ In (p_name pkg) names -> has_char ":" (p_eco pkg) = false ->
  exists vs db', check S sem db [pkg] = Ok ([vs], db')
    /\ (forall v, In v vs -> exists o, In o os /\ osv_same o v /\ o_withdrawn o = None /\ osv_affects sem o pkg)
    /\ (forall o, In o os -> o_withdrawn o = None -> osv_affects sem o pkg ->
          exists v, In v vs /\ (osv_same o v \/ related v o)).
Proof.
  intros HS C D Hn Hc. apply (history_state _ _ _ _ _ _ HS (db_state_load _ _)) in D. destruct (affecting_spec S sem names os db pkg HS C D Hn Hc) as (vs & db' & E & _ & R).
  exists vs, db'. cbn. rewrite E. cbn. split; [reflexivity|].
  destruct (reported_props _ _ _ _ R) as (R1 & R2 & _). auto.
Qed.

Lemma c09_filter S sem names os pkgs rs1 db1 rs2 db2 :
  SorterOk S -> Forall (fun p => checkable sem os p /\ In (p_name p) names /\ has_char ":" (p_eco p) = false) pkgs ->
  check S sem (load_all names os) pkgs = Ok (rs1, db1) ->
  check S sem (load_all [] os) pkgs = Ok (rs2, db2) ->
  Forall2 (Forall2 osv_same) rs1 rs2 /\ m_count db1 = m_count db2.
Proof.
  intros HS F E1 E2.
  destruct (check_spec S sem names os pkgs HS _ (db_state_load names os)) as (rs1' & db1' & E1' & D1 & R1).
  { eapply Forall_impl; [|exact F]. cbn. intuition. }
  destruct (check_spec S sem [] os pkgs HS _ (db_state_load [] os)) as (rs2' & db2' & E2' & D2 & R2).
  { eapply Forall_impl; [|exact F]. cbn. intuition. }
  rewrite E1 in E1'. injection E1' as <- <-. rewrite E2 in E2'. injection E2' as <- <-.
  split.
  - clear - R1 R2. revert rs2 R2. induction R1; intros rs2 R2; inversion R2; subst; constructor; auto.
    eapply reported_fun; eauto.
  - destruct D1 as [_ _ C1], D2 as [_ _ C2]. rewrite C1, C2.
    destruct (load_all_spec names os) as (_ & -> & _). destruct (load_all_spec [] os) as (_ & -> & _). reflexivity.
Qed.

Lemma c13_history S sem names os db pkgs rs1 db1 rs2 db2 :
  SorterOk S -> history S sem (load_all names os) db ->
  Forall (fun p => checkable sem os p /\ (names = [] \/ In (p_name p) names) /\ has_char ":" (p_eco p) = false) pkgs ->
  check S sem db pkgs = Ok (rs1, db1) -> check S sem (load_all names os) pkgs = Ok (rs2, db2) ->
  Forall2 (Forall2 osv_same) rs1 rs2.
Proof.
  intros HS H F E1 E2.
  destruct (check_spec S sem names os pkgs HS db (history_state _ _ _ _ _ _ HS (db_state_load _ _) H) F) as (rs1' & db1' & E1' & _ & R1).
  destruct (check_spec S sem names os pkgs HS _ (db_state_load names os) F) as (rs2' & db2' & E2' & _ & R2).
  rewrite E1 in E1'. injection E1' as <- <-. rewrite E2 in E2'. injection E2' as <- <-.
  clear - R1 R2. revert rs2 R2. induction R1; intros rs2 R2; inversion R2; subst; constructor; auto.
  eapply reported_fun; eauto.
Qed.

Lemma bucket_no_withdrawn S sem pkg os : SorterOk S -> forall addrs h acc vs h',
  Forall2 osv_same os h -> (forall i, In i addrs -> i < List.length os) ->
  (forall v, In v acc -> exists o, In o os /\ osv_same o v /\ o_withdrawn o = None) ->
  bucket_loop S sem pkg h addrs acc = Ok (vs, h') ->
  (forall v, In v vs -> exists o, In o os /\ osv_same o v /\ o_withdrawn o = None).
Proof.
  intros HS. induction addrs as [|i addrs IH]; intros h acc vs h' F Hb Hacc H; cbn [bucket_loop] in H.
  - injection H as <- <-. exact Hacc.
  - assert (Hb' : forall j, In j addrs -> j < List.length os) by (intros; apply Hb; now right).
    destruct (o_withdrawn (deref h i)) eqn:Ew; [eapply IH; eauto|].
    destruct (is_affected S sem (deref h i) pkg) as [[b v']|] eqn:E; [|discriminate]. cbn [rbind] in H.
    apply is_affected_frame in E; [|exact HS].
    assert (Hd : osv_same (nth i os no_osv) (deref h i)) by (apply (Forall2_nth osv_same); [exact F|apply osv_same_refl]).
    assert (F' : Forall2 osv_same os (heap_set h i v')).
    { apply Forall2_heap_set; [exact F|]. now apply osv_same_trans with (deref h i). }
    destruct (_ && _) in H; eapply IH; try exact H; eauto.
    intros v Hv. apply in_app_or in Hv as [Hv|[<-|[]]]; [auto|].
    exists (nth i os no_osv). split; [apply nth_In, Hb; now left|].
    split; [now apply osv_same_trans with (deref h i)|]. destruct Hd. congruence.
Qed.

(** no hypotheses on versions or well-formedness are needed here *)
Lemma c10_no_withdrawn S sem names os pkgs : SorterOk S -> forall db rs db',
  db_state names os db -> check S sem db pkgs = Ok (rs, db') ->
  Forall (fun vs => forall v, In v vs -> exists o, In o os /\ osv_same o v /\ o_withdrawn o = None) rs.
Proof.
  intros HS. induction pkgs as [|p pkgs IH]; intros db rs db' D H; cbn in H.
  - injection H as <- <-. constructor.
  - destruct (vulnerabilities_affecting S sem db p) as [[vs db1]|] eqn:E; [|discriminate]. cbn in H.
    pose proof (affecting_frame _ _ _ _ _ _ _ _ HS D E) as D1.
    destruct (check S sem db1 pkgs) as [[rest db2]|] eqn:E2; [|discriminate]. cbn in H.
    injection H as <- <-. constructor; [|eapply IH; eauto].
    destruct D as [Dh Dv Dc]. rewrite affecting_as_loop in E.
    destruct (bucket_loop _ _ _ _ _ _) as [[vs0 h0]|] eqn:Eb; [|discriminate]. cbn in E. injection E as <- _.
    intros v Hv. rewrite Dv in Eb. destruct (load_all_spec names os) as (_ & _ & Hb). rewrite Hb in Eb.
    assert (B : forall i, In i (block (p_eco p +s+ "-" +s+ p_name p) 0 (filter (keep names) os)) ->
              i < List.length (filter (keep names) os)) by (intros i Hi; apply block_in in Hi; lia).
    destruct (bucket_no_withdrawn S sem p _ HS _ _ [] _ _ Dh B (fun v H => False_ind _ H) Eb v Hv) as (o & Ho & R).
    exists o. apply filter_In in Ho as [Ho _]. auto.
Qed.

Lemma c07_suffixed S sem names os db pkg base suf :
  SorterOk S -> history S sem (load_all names os) db -> p_eco pkg = base +s+ ":" +s+ suf ->
  has_char ":" base = false -> has_char "-" base = false ->
  check S sem db [pkg] = Ok ([[]], db).
Proof.
  intros HS D E H1 H2. apply (history_state _ _ _ _ _ _ HS (db_state_load _ _)) in D. cbn.
  rewrite (suffixed_never S sem names os db pkg base suf D E H1 H2). reflexivity.
Qed.

Lemma c08_aligned S sem names os db pkgs :
  SorterOk S -> history S sem (load_all names os) db ->
  Forall (fun p => checkable sem os p /\ (names = [] \/ In (p_name p) names) /\ has_char ":" (p_eco p) = false) pkgs ->
  exists rs db', check S sem db pkgs = Ok (rs, db') /\ Forall2 (reported sem os) pkgs rs.
Proof.
  intros HS D F. apply (history_state _ _ _ _ _ _ HS (db_state_load _ _)) in D.
  destruct (check_spec S sem names os pkgs HS db D F) as (rs & db' & E & _ & R). eauto.
Qed.

Lemma c08_length S sem names os db pkgs rs db' :
  SorterOk S -> history S sem (load_all names os) db ->
  check S sem db pkgs = Ok (rs, db') -> List.length rs = List.length pkgs.
Proof.
  intros HS D E. apply (history_state _ _ _ _ _ _ HS (db_state_load _ _)) in D.
  exact (proj2 (check_frame S sem names os pkgs HS db rs db' D E)).
Qed.

Lemma c10_check S sem names os db pkgs rs db' :
  SorterOk S -> history S sem (load_all names os) db -> check S sem db pkgs = Ok (rs, db') ->
  forall vs v, In vs rs -> In v vs -> o_withdrawn v = None /\ exists o, In o os /\ osv_same o v.
Proof.
  intros HS D E vs v Hvs Hv. apply (history_state _ _ _ _ _ _ HS (db_state_load _ _)) in D.
  pose proof (c10_no_withdrawn S sem names os pkgs HS db rs db' D E) as F.
  rewrite Forall_forall in F. destruct (F vs Hvs v Hv) as (o & Ho & Hs & W).
  split; [destruct Hs; congruence|eauto].
Qed.

Lemma c10_list S sem names os db entries incl :
  SorterOk S -> history S sem (load_all names os) db -> Permutation entries (m_vulns db) ->
  let vs := vulnerabilities (m_heap db) entries incl in
  NoDup (map o_id vs)
  /\ (forall v, In v vs -> exists o, In o os /\ osv_same o v /\ (o_withdrawn o = None \/ incl = true))
  /\ (forall o, In o os -> o_affected o <> [] -> o_withdrawn o = None \/ incl = true ->
        (names = [] \/ exists a n, In a (o_affected o) /\ match_name (a_pkg a) n /\ In n names) ->
        In (o_id o) (map o_id vs)).
Proof.
  intros HS D P. apply (history_state _ _ _ _ _ _ HS (db_state_load _ _)) in D.
  destruct (vulnerabilities_spec names os db entries incl D P) as (V1 & V2 & V3).
  split; [exact V1|]. split; [exact V2|]. intros o H1 H2 H3 H4. apply V3; auto. now apply keep_iff.
Qed.
