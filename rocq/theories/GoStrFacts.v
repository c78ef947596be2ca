(** Characterising lemmas for the string primitives of [GoStr]. *)
From Verif Require Import GoStr.

Lemma sapp_assoc a b c : (a +s+ b) +s+ c = a +s+ (b +s+ c).
Proof. induction a as [|x a IH]; simpl; [reflexivity | now rewrite IH]. Qed.
Lemma sapp_nil_r a : a +s+ "" = a.
Proof. induction a as [|x a IH]; simpl; [reflexivity | now rewrite IH]. Qed.
Lemma slen_app a b : String.length (a +s+ b) = String.length a + String.length b.
Proof. induction a as [|x a IH]; simpl; [reflexivity | now rewrite IH]. Qed.
Lemma sapp_inj_l a b c : a +s+ b = a +s+ c -> b = c.
Proof. induction a as [|x a IH]; simpl; [auto | intros H; inversion H; auto]. Qed.
Lemma sapp_inj_len a b c d :
  String.length a = String.length c -> a +s+ b = c +s+ d -> a = c /\ b = d.
Proof.
  revert c; induction a as [|x a IH]; intros [|y c]; simpl; intros HL H; try discriminate; auto.
  inversion H; subst. destruct (IH c) as [-> ->]; auto.
Qed.
Lemma sapp_inj_r a b c : a +s+ c = b +s+ c -> a = b.
Proof.
  intros H. apply (sapp_inj_len a c b c); [|exact H].
  apply (f_equal String.length) in H. rewrite !slen_app in H. lia.
Qed.
Lemma sapp_nil_inv a b : a +s+ b = "" -> a = "" /\ b = "".
Proof. destruct a; simpl; [auto | discriminate]. Qed.

Lemma seqb_eq a b : seqb a b = true <-> a = b.
Proof. apply String.eqb_eq. Qed.
Lemma seqb_refl a : seqb a a = true.
Proof. apply String.eqb_refl. Qed.
Lemma seqb_neq a b : seqb a b = false <-> a <> b.
Proof. apply String.eqb_neq. Qed.
Lemma seqb_sym a b : seqb a b = seqb b a.
Proof. apply String.eqb_sym. Qed.
Lemma seqb_spec a b : reflect (a = b) (seqb a b).
Proof. apply String.eqb_spec. Qed.

Lemma strip_prefix_some p s r : strip_prefix p s = Some r <-> s = p +s+ r.
Proof.
  revert s r; induction p as [|c p IH]; intros s r; simpl.
  - split; [intros [= ->]; reflexivity | intros ->; reflexivity].
  - destruct s as [|d s]; [split; [discriminate | intros H; discriminate]|].
    destruct (Ascii.eqb_spec c d) as [->|N].
    + rewrite IH; split; [intros ->; reflexivity | intros H; inversion H; auto].
    + split; [discriminate | intros H; inversion H; congruence].
Qed.
Lemma strip_prefix_app p r : strip_prefix p (p +s+ r) = Some r.
Proof. now apply strip_prefix_some. Qed.
Lemma strip_prefix_none p s : strip_prefix p s = None <-> forall r, s <> p +s+ r.
Proof.
  split.
  - intros H r E. apply strip_prefix_some in E. congruence.
  - intros H. destruct (strip_prefix p s) as [r|] eqn:E; [|reflexivity].
    apply strip_prefix_some in E. destruct (H r E).
Qed.

Lemma strip_suffix_some suf s r : strip_suffix suf s = Some r <-> s = r +s+ suf.
Proof.
  revert r; induction s as [|c s IH]; intros r; cbn [strip_suffix].
  - destruct (seqb_spec "" suf) as [E|E].
    + split; [intros [= <-]; simpl; auto | intros H].
      subst suf. rewrite sapp_nil_r in H. now subst.
    + split; [discriminate | intros H]. symmetry in H. apply sapp_nil_inv in H as [_ H]. congruence.
  - destruct (seqb_spec (String c s) suf) as [E|E].
    + split; [intros [= <-]; simpl; auto | intros H].
      f_equal. assert (String.length r = 0) as Z.
      { apply (f_equal String.length) in H. rewrite slen_app in H. rewrite <- E in H. simpl in H. lia. }
      destruct r; [reflexivity | discriminate].
    + destruct (strip_suffix suf s) as [r'|] eqn:F; simpl.
      * split.
        -- intros [= <-]. simpl. f_equal. now apply IH.
        -- intros H. destruct r as [|d r]; simpl in H; [congruence|].
           inversion H; subst. f_equal. f_equal.
           assert (Some r' = Some r) as G by (apply IH; auto). congruence.
      * split; [discriminate|]. intros H. destruct r as [|d r]; simpl in H; [congruence|].
        inversion H; subst. assert (None = Some r) as G by (apply IH; auto). discriminate.
Qed.
Lemma strip_suffix_app suf r : strip_suffix suf (r +s+ suf) = Some r.
Proof. now apply strip_suffix_some. Qed.
Lemma strip_suffix_none suf s : strip_suffix suf s = None <-> forall r, s <> r +s+ suf.
Proof.
  split.
  - intros H r E. apply strip_suffix_some in E. congruence.
  - intros H. destruct (strip_suffix suf s) as [r|] eqn:E; [|reflexivity].
    apply strip_suffix_some in E. destruct (H r E).
Qed.

Lemma has_prefix_iff s p : has_prefix s p = true <-> exists r, s = p +s+ r.
Proof.
  unfold has_prefix. destruct (strip_prefix p s) as [r|] eqn:E.
  - apply strip_prefix_some in E. split; eauto.
  - split; [discriminate|]. intros [r H]. apply strip_prefix_some in H. congruence.
Qed.
Lemma has_prefix_false s p : has_prefix s p = false <-> forall r, s <> p +s+ r.
Proof.
  unfold has_prefix. destruct (strip_prefix p s) as [r|] eqn:E.
  - apply strip_prefix_some in E. split; [discriminate | intros H; destruct (H _ E)].
  - pose proof (proj1 (strip_prefix_none _ _) E). tauto.
Qed.
Lemma has_prefix_app p r : has_prefix (p +s+ r) p = true.
Proof. apply has_prefix_iff; eauto. Qed.
Lemma has_suffix_iff s suf : has_suffix s suf = true <-> exists r, s = r +s+ suf.
Proof.
  unfold has_suffix. destruct (strip_suffix suf s) as [r|] eqn:E.
  - apply strip_suffix_some in E. split; eauto.
  - split; [discriminate|]. intros [r H]. apply strip_suffix_some in H. congruence.
Qed.
Lemma trim_prefix_app p r : trim_prefix (p +s+ r) p = r.
Proof. unfold trim_prefix. now rewrite strip_prefix_app. Qed.
Lemma trim_prefix_no s p : has_prefix s p = false -> trim_prefix s p = s.
Proof. unfold trim_prefix, has_prefix. destruct (strip_prefix p s); [discriminate | auto]. Qed.
Lemma trim_suffix_app r suf : trim_suffix (r +s+ suf) suf = r.
Proof. unfold trim_suffix. now rewrite strip_suffix_app. Qed.

(** [cut_at] finds the first occurrence *)
Lemma cut_at_some sep s b a :
  cut_at sep s = Some (b, a) ->
  s = b +s+ sep +s+ a /\
  forall b' a', s = b' +s+ sep +s+ a' -> String.length b <= String.length b'.
Proof.
  revert b a; induction s as [|c s IH]; intros b a; cbn [cut_at];
    destruct (strip_prefix sep _) as [r|] eqn:E.
  - intros [= <- <-]. apply strip_prefix_some in E. split; [exact E|]. simpl; lia.
  - discriminate.
  - intros [= <- <-]. apply strip_prefix_some in E. split; [exact E|]. simpl; lia.
  - destruct (cut_at sep s) as [[b0 a0]|] eqn:F; [|discriminate].
    intros [= <- <-]. destruct (IH _ _ eq_refl) as [-> M]. split; [reflexivity|].
    intros b' a' H. destruct b' as [|d b']; simpl in H.
    + destruct (proj1 (strip_prefix_none _ _) E a'). exact H.
    + inversion H; subst. simpl. apply le_n_S. eapply M; eauto.
Qed.
Lemma cut_at_none sep s : cut_at sep s = None <-> forall b a, s <> b +s+ sep +s+ a.
Proof.
  induction s as [|c s IH]; cbn [cut_at]; destruct (strip_prefix sep _) as [r|] eqn:E.
  - apply strip_prefix_some in E. split; [discriminate | intros H; destruct (H "" r E)].
  - split; [|auto]. intros _ b a H. symmetry in H. apply sapp_nil_inv in H as [-> H].
    apply sapp_nil_inv in H as [-> _]. discriminate.
  - apply strip_prefix_some in E. split; [discriminate | intros H; destruct (H "" r E)].
  - destruct (cut_at sep s) as [[b0 a0]|] eqn:F.
    + split; [discriminate|]. intros H. apply cut_at_some in F as [F _].
      destruct (H (String c b0) a0). now rewrite F.
    + split; [|auto]. intros _ b a H. destruct b as [|d b]; simpl in H.
      * destruct (proj1 (strip_prefix_none _ _) E a). exact H.
      * inversion H; subst. destruct (proj1 IH eq_refl b a); reflexivity.
Qed.
Lemma contains_iff s sub : contains s sub = true <-> exists b a, s = b +s+ sub +s+ a.
Proof.
  unfold contains. destruct (cut_at sub s) as [[b a]|] eqn:E.
  - apply cut_at_some in E as [E _]. split; eauto.
  - split; [discriminate|]. intros (b & a & H). destruct (proj1 (cut_at_none _ _) E b a H).
Qed.
Lemma contains_false s sub : contains s sub = false <-> forall b a, s <> b +s+ sub +s+ a.
Proof.
  rewrite <- cut_at_none. unfold contains. destruct (cut_at sub s) as [[b a]|]; split; congruence.
Qed.

Lemma has_char_app c a b : has_char c (a +s+ b) = has_char c a || has_char c b.
Proof. induction a as [|x a IH]; simpl; [reflexivity | rewrite IH; apply orb_assoc]. Qed.
Lemma has_char_iff c s : has_char c s = true <-> exists b a, s = b +s+ String c a.
Proof.
  induction s as [|d s IH]; simpl.
  - split; [discriminate|]. intros (b & a & H). destruct b; discriminate.
  - rewrite orb_true_iff, IH. split.
    + intros [H | (b & a & ->)].
      * apply Ascii.eqb_eq in H as ->. exists "", s. reflexivity.
      * exists (String d b), a. reflexivity.
    + intros (b & a & H). destruct b as [|e b]; simpl in H; inversion H; subst.
      * left. apply Ascii.eqb_refl.
      * right. eauto.
Qed.

(** one-byte separators *)
Lemma cut_at_char c s b a :
  cut_at (String c "") s = Some (b, a) <-> s = b +s+ String c a /\ has_char c b = false.
Proof.
  revert b a; induction s as [|d s IH]; intros b a; cbn [cut_at strip_prefix].
  - split; [discriminate|]. intros [H _]. destruct b; discriminate.
  - destruct (Ascii.eqb_spec c d) as [->|N].
    + split.
      * intros [= <- <-]. auto.
      * intros [H F]. destruct b as [|e b]; simpl in H; inversion H; subst; [reflexivity|].
        simpl in F. rewrite Ascii.eqb_refl in F. discriminate.
    + destruct (cut_at (String c "") s) as [[b0 a0]|] eqn:E.
      * split.
        -- intros [= <- <-]. destruct (proj1 (IH _ _) eq_refl) as [-> F]. split; [reflexivity|].
           simpl. rewrite F. destruct (Ascii.eqb_spec c d); [congruence | reflexivity].
        -- intros [H F]. destruct b as [|e b]; simpl in H; inversion H; subst; [congruence|].
           simpl in F. apply orb_false_iff in F as [_ F].
           assert (Some (b0, a0) = Some (b, a)) as G by (apply IH; auto). congruence.
      * split; [discriminate|]. intros [H F].
        destruct b as [|e b]; simpl in H; inversion H; subst; [congruence|].
        simpl in F. apply orb_false_iff in F as [_ F].
        assert (None = Some (b, a)) as G by (apply IH; auto). congruence.
Qed.
Lemma cut_at_char_none c s : cut_at (String c "") s = None <-> has_char c s = false.
Proof.
  rewrite cut_at_none. split.
  - intros H. destruct (has_char c s) eqn:E; [|reflexivity].
    apply has_char_iff in E as (b & a & E). destruct (H b a). simpl. exact E.
  - intros H b a E. simpl in E. assert (has_char c s = true) by (apply has_char_iff; eauto). congruence.
Qed.
Lemma cut_char_found c b a : has_char c b = false -> cut (b +s+ String c a) (String c "") = (b, a, true).
Proof. intros H. unfold cut. now rewrite (proj2 (cut_at_char c _ b a)) by auto. Qed.
Lemma cut_char_absent c s : has_char c s = false -> cut s (String c "") = (s, "", false).
Proof. intros H. unfold cut. now rewrite (proj2 (cut_at_char_none c s)) by auto. Qed.

Lemma cut_last_some c s b a :
  cut_last c s = Some (b, a) <-> s = b +s+ String c a /\ has_char c a = false.
Proof.
  revert b a; induction s as [|d s IH]; intros b a; cbn [cut_last].
  - split; [discriminate|]. intros [H _]. destruct b; discriminate.
  - destruct (cut_last c s) as [[b0 a0]|] eqn:E.
    + split.
      * intros [= <- <-]. destruct (proj1 (IH _ _) eq_refl) as [-> F]. auto.
      * intros [H F]. destruct b as [|e b]; simpl in H; inversion H; subst.
        -- destruct (proj1 (IH _ _) eq_refl) as [-> _].
           rewrite has_char_app in F. simpl in F. rewrite Ascii.eqb_refl, orb_true_r in F. discriminate.
        -- assert (Some (b0, a0) = Some (b, a)) as G by (apply IH; auto). congruence.
    + assert (has_char c s = false) as NS.
      { clear -E. induction s as [|d s IH]; [reflexivity|]. cbn [cut_last] in E.
        destruct (cut_last c s) as [[? ?]|]; [discriminate|].
        simpl. destruct (Ascii.eqb c d); [discriminate|]. simpl. auto. }
      destruct (Ascii.eqb_spec c d) as [->|N].
      * split.
        -- intros [= <- <-]. auto.
        -- intros [H F]. destruct b as [|e b]; simpl in H; inversion H; subst; [reflexivity|].
           rewrite has_char_app in NS. simpl in NS. rewrite Ascii.eqb_refl, orb_true_r in NS. discriminate.
      * split; [discriminate|]. intros [H F]. destruct b as [|e b]; simpl in H; inversion H; subst; [congruence|].
        rewrite has_char_app in NS. simpl in NS. rewrite Ascii.eqb_refl, orb_true_r in NS. discriminate.
Qed.
Lemma cut_last_none c s : cut_last c s = None <-> has_char c s = false.
Proof.
  split.
  - intros H. destruct (has_char c s) eqn:E; [|reflexivity]. exfalso.
    induction s as [|d s IH]; [discriminate|]. cbn [cut_last] in H. simpl in E.
    destruct (cut_last c s) as [[? ?]|]; [discriminate|].
    destruct (Ascii.eqb c d); [discriminate|]. simpl in E. auto.
  - intros H. destruct (cut_last c s) as [[b a]|] eqn:E; [|reflexivity].
    apply cut_last_some in E as [-> _]. rewrite has_char_app in H. simpl in H.
    rewrite Ascii.eqb_refl, orb_true_r in H. discriminate.
Qed.

(** [split_char] and [join] *)
Lemma split_char_cons c s : exists h t, split_char c s = h :: t.
Proof.
  destruct s as [|d s]; simpl; eauto. destruct (Ascii.eqb c d); eauto.
  destruct (split_char c s); eauto.
Qed.
Lemma split_char_nochar c s : has_char c s = false -> split_char c s = [s].
Proof.
  induction s as [|d s IH]; simpl; [auto|]. intros H. apply orb_false_iff in H as [H1 H2].
  rewrite H1, IH by auto. reflexivity.
Qed.
Lemma split_char_app c a b :
  has_char c a = false -> split_char c (a +s+ String c b) = a :: split_char c b.
Proof.
  induction a as [|d a IH]; simpl; intros H.
  - now rewrite Ascii.eqb_refl.
  - apply orb_false_iff in H as [H1 H2]. rewrite H1, IH by auto. reflexivity.
Qed.
Lemma join_split_char c s : join (String c "") (split_char c s) = s.
Proof.
  induction s as [|d s IH]; simpl; [reflexivity|].
  destruct (split_char_cons c s) as (h & t & E). rewrite E in *.
  destruct (Ascii.eqb_spec c d) as [->|N].
  - simpl in *. rewrite IH. reflexivity.
  - destruct t as [|h' t]; simpl in *; now rewrite IH.
Qed.
Lemma split_char_pieces c s : Forall (fun x => has_char c x = false) (split_char c s).
Proof.
  induction s as [|d s IH]; simpl; [repeat constructor|].
  destruct (split_char_cons c s) as (h & t & E). rewrite E in *.
  destruct (Ascii.eqb_spec c d) as [->|N]; [constructor; auto|].
  inversion IH; subst. constructor; [|auto]. simpl. rewrite H1.
  destruct (Ascii.eqb_spec c d); [congruence | reflexivity].
Qed.
Lemma split_char_join c l :
  l <> [] -> Forall (fun x => has_char c x = false) l -> split_char c (join (String c "") l) = l.
Proof.
  intros NE F. induction F as [|x l Hx F IH]; [congruence|].
  destruct l as [|y l]; [apply split_char_nochar; auto|].
  change (join (String c "") (x :: y :: l)) with (x +s+ String c (join (String c "") (y :: l))).
  rewrite split_char_app by auto. rewrite IH by discriminate. reflexivity.
Qed.

(** reversal *)
Lemma str_rev_app_spec s acc : str_rev_app s acc = str_rev s +s+ acc.
Proof.
  unfold str_rev. revert acc. induction s as [|c s IH]; intros acc; simpl; [reflexivity|].
  rewrite IH, (IH (String c "")), sapp_assoc. reflexivity.
Qed.
Lemma str_rev_cons c s : str_rev (String c s) = str_rev s +s+ String c "".
Proof. unfold str_rev at 1. simpl. apply str_rev_app_spec. Qed.
Lemma str_rev_append a b : str_rev (a +s+ b) = str_rev b +s+ str_rev a.
Proof.
  induction a as [|c a IH]; simpl; [now rewrite sapp_nil_r|].
  rewrite !str_rev_cons, IH, sapp_assoc. reflexivity.
Qed.
Lemma str_rev_involutive s : str_rev (str_rev s) = s.
Proof.
  induction s as [|c s IH]; [reflexivity|].
  rewrite str_rev_cons, str_rev_append, IH. reflexivity.
Qed.
Lemma str_rev_length s : String.length (str_rev s) = String.length s.
Proof.
  induction s as [|c s IH]; [reflexivity|]. rewrite str_rev_cons, slen_app, IH. simpl. lia.
Qed.

Lemma str_forall_app p a b : str_forall p (a +s+ b) = str_forall p a && str_forall p b.
Proof. induction a as [|x a IH]; simpl; [reflexivity | rewrite IH; apply andb_assoc]. Qed.
Lemma str_take_skip n s : str_take n s +s+ str_skip n s = s.
Proof. revert s; induction n as [|n IH]; intros [|c s]; simpl; auto. now rewrite IH. Qed.
Lemma str_take_app a b : str_take (String.length a) (a +s+ b) = a.
Proof. induction a as [|c a IH]; simpl; [reflexivity | now rewrite IH]. Qed.
Lemma str_skip_app a b : str_skip (String.length a) (a +s+ b) = b.
Proof. induction a as [|c a IH]; simpl; auto. Qed.
Lemma str_take_length n s : String.length (str_take n s) = Nat.min n (String.length s).
Proof. revert s; induction n as [|n IH]; intros [|c s]; simpl; auto. Qed.
Lemma str_skip_length n s : String.length (str_skip n s) = String.length s - n.
Proof. revert s; induction n as [|n IH]; intros [|c s]; simpl; auto. Qed.

(** byte-wise order *)
Lemma N_of_ascii_inj a b : N_of_ascii a = N_of_ascii b -> a = b.
Proof. intros H. rewrite <- (ascii_N_embedding a), <- (ascii_N_embedding b). now rewrite H. Qed.
Lemma str_ltb_irrefl a : str_ltb a a = false.
Proof. induction a as [|c a IH]; simpl; [reflexivity|]. now rewrite N.ltb_irrefl. Qed.
Lemma str_ltb_trans a b c : str_ltb a b = true -> str_ltb b c = true -> str_ltb a c = true.
Proof.
  revert b c; induction a as [|x a IH]; intros [|y b] [|z c]; simpl; try discriminate; auto.
  destruct (N.ltb_spec (N_of_ascii x) (N_of_ascii y)), (N.ltb_spec (N_of_ascii y) (N_of_ascii x)),
    (N.ltb_spec (N_of_ascii y) (N_of_ascii z)), (N.ltb_spec (N_of_ascii z) (N_of_ascii y)),
    (N.ltb_spec (N_of_ascii x) (N_of_ascii z)), (N.ltb_spec (N_of_ascii z) (N_of_ascii x));
    try lia; try discriminate; auto. intros; eauto.
Qed.
Lemma str_ltb_total a b : str_ltb a b = false -> str_ltb b a = false -> a = b.
Proof.
  revert b; induction a as [|x a IH]; intros [|y b]; simpl; try discriminate; auto.
  destruct (N.ltb_spec (N_of_ascii x) (N_of_ascii y)), (N.ltb_spec (N_of_ascii y) (N_of_ascii x));
    try discriminate; try lia.
  intros H1 H2. f_equal; [apply N_of_ascii_inj; lia | auto].
Qed.
Lemma str_ltb_asym a b : str_ltb a b = true -> str_ltb b a = false.
Proof.
  intros H. destruct (str_ltb b a) eqn:E; [|reflexivity].
  pose proof (str_ltb_trans _ _ _ H E) as F.
  rewrite str_ltb_irrefl in F. discriminate.
Qed.

(** lower-casing *)
Lemma lower_char_range c : is_upper (lower_char c) = false.
Proof. destruct c as [[] [] [] [] [] [] [] []]; reflexivity. Qed.
Lemma lower_char_idem c : lower_char (lower_char c) = lower_char c.
Proof. unfold lower_char at 1. now rewrite lower_char_range. Qed.
Lemma to_lower_idem s : to_lower (to_lower s) = to_lower s.
Proof. unfold to_lower. induction s as [|c s IH]; simpl; [reflexivity|]. now rewrite lower_char_idem, IH. Qed.
Lemma str_map_app f a b : str_map f (a +s+ b) = str_map f a +s+ str_map f b.
Proof. induction a as [|c a IH]; simpl; [reflexivity | now rewrite IH]. Qed.

Lemma mem_iff x l : mem x l = true <-> In x l.
Proof.
  unfold mem. rewrite existsb_exists. split.
  - intros (y & H & E). apply seqb_eq in E. now subst.
  - intros H. exists x. split; [auto | apply seqb_refl].
Qed.
Lemma mem_false x l : mem x l = false <-> ~ In x l.
Proof. rewrite <- mem_iff. destruct (mem x l); split; congruence. Qed.

(** white space trimming *)
Definition ascii_str (s : string) : bool := str_forall (fun c => N.ltb (N_of_ascii c) 128) s.

(** a string that neither starts nor ends with a white-space character (in any
    of its encodings) is unchanged *)
Definition starts_nonspace (s : string) : bool :=
  match s with
  | EmptyString => true
  | String c _ => negb (is_space1 c) && N.ltb (N_of_ascii c) 128
  end.
Definition ends_nonspace (s : string) : bool := starts_nonspace (str_rev s).

Lemma is_space2_ascii a b : N.ltb (N_of_ascii a) 128 = true -> is_space2 a b = false.
Proof.
  unfold is_space2. intros H. apply N.ltb_lt in H.
  destruct (N.eqb_spec (N_of_ascii a) 194); [lia | reflexivity].
Qed.
Lemma is_space3_ascii a b c : N.ltb (N_of_ascii a) 128 = true -> is_space3 a b c = false.
Proof.
  unfold is_space3. intros H. apply N.ltb_lt in H.
  destruct (N.eqb_spec (N_of_ascii a) 225); [lia|].
  destruct (N.eqb_spec (N_of_ascii a) 226); [lia|].
  destruct (N.eqb_spec (N_of_ascii a) 227); [lia | reflexivity].
Qed.
Lemma is_space2_ascii_r a b : N.ltb (N_of_ascii b) 128 = true -> is_space2 a b = false.
Proof.
  unfold is_space2. intros H. apply N.ltb_lt in H.
  destruct (N.eqb_spec (N_of_ascii b) 133); [lia|].
  destruct (N.eqb_spec (N_of_ascii b) 160); [lia|]. apply andb_false_r.
Qed.
Lemma is_space3_ascii_r a b c : N.ltb (N_of_ascii c) 128 = true -> is_space3 a b c = false.
Proof.
  unfold is_space3. intros H. apply N.ltb_lt in H.
  destruct (N.eqb_spec (N_of_ascii c) 128); [lia|].
  destruct (N.eqb_spec (N_of_ascii c) 159); [lia|].
  destruct (N.eqb_spec (N_of_ascii c) 168); [lia|].
  destruct (N.eqb_spec (N_of_ascii c) 169); [lia|].
  destruct (N.eqb_spec (N_of_ascii c) 175); [lia|].
  destruct (N.leb_spec 128 (N_of_ascii c)); [lia|].
  simpl. rewrite !andb_false_r. reflexivity.
Qed.
Lemma trim_left_id s : starts_nonspace s = true -> trim_left s = s.
Proof.
  destruct s as [|a [|b [|c s]]]; simpl; auto;
    intros H; apply andb_true_iff in H as [H1 H2]; apply negb_true_iff in H1; rewrite H1; auto;
    rewrite is_space2_ascii by auto; auto. now rewrite is_space3_ascii by auto.
Qed.
Lemma trim_left_rev_id s : starts_nonspace s = true -> trim_left_rev s = s.
Proof.
  destruct s as [|a [|b [|c s]]]; simpl; auto;
    intros H; apply andb_true_iff in H as [H1 H2]; apply negb_true_iff in H1; rewrite H1; auto;
    rewrite is_space2_ascii_r by auto; auto. now rewrite is_space3_ascii_r by auto.
Qed.
Lemma trim_space_id s : starts_nonspace s = true -> ends_nonspace s = true -> trim_space s = s.
Proof.
  intros H1 H2. unfold trim_space, trim_right. rewrite trim_left_id by auto.
  rewrite trim_left_rev_id by exact H2. apply str_rev_involutive.
Qed.
Lemma trim_left_spaces w s : str_forall is_space1 w = true -> trim_left (w +s+ s) = trim_left s.
Proof.
  induction w as [|c w IH]; simpl; [reflexivity|]. intros H. apply andb_true_iff in H as [H1 H2].
  rewrite H1. auto.
Qed.
Lemma trim_left_rev_spaces w s : str_forall is_space1 w = true -> trim_left_rev (w +s+ s) = trim_left_rev s.
Proof.
  induction w as [|c w IH]; simpl; [reflexivity|]. intros H. apply andb_true_iff in H as [H1 H2].
  rewrite H1. auto.
Qed.
Lemma str_forall_rev p s : str_forall p (str_rev s) = str_forall p s.
Proof.
  induction s as [|c s IH]; [reflexivity|]. rewrite str_rev_cons, str_forall_app, IH. simpl.
  rewrite andb_true_r. apply andb_comm.
Qed.
(** the general trimming lemma: white space on both sides of a core *)
Lemma trim_space_core w1 s w2 :
  str_forall is_space1 w1 = true -> str_forall is_space1 w2 = true ->
  s <> "" -> starts_nonspace s = true -> ends_nonspace s = true ->
  trim_space (w1 +s+ s +s+ w2) = s.
Proof.
  intros H1 H2 NE S E. unfold trim_space, trim_right.
  rewrite trim_left_spaces by auto.
  rewrite trim_left_id by (destruct s; [congruence | exact S]).
  rewrite str_rev_append, trim_left_rev_spaces by now rewrite str_forall_rev.
  rewrite trim_left_rev_id by exact E. apply str_rev_involutive.
Qed.
Lemma trim_left_all w : str_forall is_space1 w = true -> trim_left w = "".
Proof.
  intros H. rewrite <- (sapp_nil_r w), trim_left_spaces by auto. reflexivity.
Qed.

Lemma str_forall_impl (p q : ascii -> bool) s :
  (forall c, p c = true -> q c = true) -> str_forall p s = true -> str_forall q s = true.
Proof.
  intros H. induction s as [|c s IH]; simpl; [auto|]. intros F. apply andb_true_iff in F as [F1 F2].
  rewrite (H _ F1). auto.
Qed.
Lemma str_forall_has_char p c s : str_forall p s = true -> p c = false -> has_char c s = false.
Proof.
  induction s as [|d s IH]; simpl; [auto|]. intros F N. apply andb_true_iff in F as [F1 F2].
  rewrite IH by auto. destruct (Ascii.eqb_spec c d); [congruence | reflexivity].
Qed.
Lemma has_char_str_forall c s : has_char c s = false <-> str_forall (fun d => negb (Ascii.eqb c d)) s = true.
Proof.
  induction s as [|d s IH]; simpl; [tauto|].
  rewrite orb_false_iff, andb_true_iff, negb_true_iff, IH. tauto.
Qed.
