From Verif Require Import GoStr GoStrFacts Path.

(** an ordinary path element *)
Definition elem (e : string) : Prop := e <> "" /\ e <> "." /\ e <> ".." /\ has_char "/" e = false.

Lemma join_cons sep a b l : join sep (a :: b :: l) = a +s+ sep +s+ join sep (b :: l).
Proof. reflexivity. Qed.
Lemma join_app sep l1 l2 : l1 <> [] -> l2 <> [] -> join sep (l1 ++ l2) = join sep l1 +s+ sep +s+ join sep l2.
Proof.
  intros H1 H2. induction l1 as [|a l1 IH]; [contradiction|].
  destruct l1 as [|b l1].
  - destruct l2; [contradiction|]. reflexivity.
  - change ((a :: b :: l1) ++ l2) with (a :: b :: (l1 ++ l2)). rewrite !join_cons.
    rewrite <- sapp_assoc. change (b :: l1 ++ l2) with ((b :: l1) ++ l2). rewrite IH by discriminate.
    rewrite !sapp_assoc. reflexivity.
Qed.

Lemma clean_steps r l st : Forall elem l -> fold_left (clean_step r) l st = rev l ++ st.
Proof.
  revert st. induction l as [|e l IH]; intros st H; [reflexivity|]. inversion H as [|? ? He Hl]; subst.
  cbn [fold_left]. rewrite IH by assumption. cbn [rev]. rewrite <- app_assoc. cbn [app]. do 2 f_equal.
  unfold clean_step. destruct He as (H1 & H2 & H3 & _).
  apply seqb_neq in H1, H2, H3. now rewrite H1, H2, H3.
Qed.
Lemma elem_pieces l : Forall elem l -> Forall (fun x => has_char "/" x = false) l.
Proof. apply Forall_impl. intros a (_ & _ & _ & H). exact H. Qed.

Lemma split_elems l : Forall elem l -> l <> [] -> split_char "/" (join "/" l) = l.
Proof. intros H N. apply split_char_join; [assumption|]. now apply elem_pieces. Qed.

Lemma elem_head_not_rooted l : Forall elem l -> rooted (join "/" l) = false.
Proof.
  intros H. unfold rooted. apply has_prefix_false. intros r E.
  destruct l as [|e l]; [discriminate|]. inversion H as [|? ? (H1 & _ & _ & H4) Hl]; subst.
  destruct e as [|c e]; [contradiction|].
  assert (c = "/"%char) as ->. { destruct l; cbn in E; now injection E. }
  cbn in H4. discriminate.
Qed.

(** an absolute path of ordinary elements *)
Definition abs_path (l : list string) : string := "/" +s+ join "/" l.
Lemma rooted_abs l : rooted (abs_path l) = true.
Proof. reflexivity. Qed.
Lemma split_abs l : Forall elem l -> l <> [] -> split_char "/" (abs_path l) = "" :: l.
Proof.
  intros H N. change (abs_path l) with ("" +s+ String "/" (join "/" l)). rewrite split_char_app by reflexivity.
  now rewrite split_elems.
Qed.
Lemma clean_elems_abs l : Forall elem l -> clean_elems (abs_path l) = l.
Proof.
  intros H. unfold clean_elems. rewrite rooted_abs. destruct l as [|e l]; [reflexivity|].
  rewrite split_abs by (assumption || discriminate).
  change (fold_left (clean_step true) ("" :: e :: l) []) with (fold_left (clean_step true) (e :: l) []).
  rewrite clean_steps by assumption. now rewrite app_nil_r, rev_involutive.
Qed.
Lemma clean_abs l : Forall elem l -> clean (abs_path l) = abs_path l.
Proof. intros H. unfold clean. now rewrite clean_elems_abs, rooted_abs. Qed.
Lemma clean_rel l : Forall elem l -> l <> [] -> clean (join "/" l) = join "/" l.
Proof.
  intros H N. unfold clean, clean_elems. rewrite elem_head_not_rooted, split_elems, clean_steps by assumption.
  rewrite app_nil_r, rev_involutive. destruct (seqb_spec (join "/" l) "") as [E|]; [|reflexivity].
  exfalso. destruct l as [|e l]; [contradiction|]. inversion H as [|? ? (H1 & _) Hl]; subst.
  destruct e; [contradiction|]. destruct l; discriminate.
Qed.

(** joining elements below an absolute path *)
Lemma abs_app a b : a <> [] -> b <> [] -> abs_path a +s+ "/" +s+ join "/" b = abs_path (a ++ b).
Proof. intros H1 H2. unfold abs_path. rewrite join_app by assumption. now rewrite !sapp_assoc. Qed.
Lemma fold_clean_app p r : fold_left (clean_step true) (split_char "/" (p +s+ String "/" r)) []
  = fold_left (clean_step true) (split_char "/" r) (fold_left (clean_step true) (split_char "/" p) []).
Proof.
  enough (E : split_char "/" (p +s+ String "/" r) = split_char "/" p ++ split_char "/" r) by (rewrite E; apply fold_left_app).
  induction p as [|c p IH]; [reflexivity|]. cbn [append split_char].
  destruct (Ascii.eqb "/" c).
  - now rewrite IH.
  - rewrite IH. destruct (split_char_cons "/" p) as (h & t & E). rewrite E. reflexivity.
Qed.
Lemma path_join_abs a b : Forall elem a -> Forall elem b -> b <> [] -> path_join (abs_path a :: b) = abs_path (a ++ b).
Proof.
  intros Ha Hb N. unfold path_join, drop_empty. change (seqb (abs_path a) "") with false. cbv iota.
  destruct b as [|e b]; [contradiction|]. rewrite join_cons. unfold clean.
  assert (E : clean_elems (abs_path a +s+ "/" +s+ join "/" (e :: b)) = a ++ e :: b).
  { unfold clean_elems. change (rooted (abs_path a +s+ "/" +s+ join "/" (e :: b))) with true.
    change ("/" +s+ join "/" (e :: b)) with (String "/" (join "/" (e :: b))). rewrite fold_clean_app.
    rewrite split_elems by (assumption || discriminate). rewrite clean_steps by assumption.
    rewrite rev_app_distr, rev_involutive. f_equal.
    pose proof (clean_elems_abs a Ha) as E. unfold clean_elems in E. now rewrite rooted_abs in E. }
  rewrite E. reflexivity.
Qed.
(** a trailing slash on the base makes no difference *)
Lemma path_join_abs_slash a b : Forall elem a -> Forall elem b -> b <> [] ->
  path_join ((abs_path a +s+ "/") :: b) = abs_path (a ++ b).
Proof.
  intros Ha Hb N. unfold path_join, drop_empty. change (seqb (abs_path a +s+ "/") "") with false. cbv iota.
  destruct b as [|e b]; [contradiction|]. rewrite join_cons. unfold clean.
  assert (E : clean_elems ((abs_path a +s+ "/") +s+ "/" +s+ join "/" (e :: b)) = a ++ e :: b).
  { unfold clean_elems. change (rooted ((abs_path a +s+ "/") +s+ "/" +s+ join "/" (e :: b))) with true.
    change ("/" +s+ join "/" (e :: b)) with (String "/" (join "/" (e :: b))). rewrite fold_clean_app.
    rewrite split_elems by (assumption || discriminate). rewrite clean_steps by assumption.
    rewrite rev_app_distr, rev_involutive. f_equal.
    change (abs_path a +s+ "/") with (abs_path a +s+ String "/" ""). rewrite fold_clean_app. cbn [split_char fold_left].
    change (clean_step true (fold_left (clean_step true) (split_char "/" (abs_path a)) []) "") with (fold_left (clean_step true) (split_char "/" (abs_path a)) []).
    pose proof (clean_elems_abs a Ha) as E. unfold clean_elems in E. now rewrite rooted_abs in E. }
  rewrite E. reflexivity.
Qed.

(** Dir and Base of an absolute path *)
Lemma abs_snoc a e : abs_path (a ++ [e]) = (if a then "" else abs_path a) +s+ "/" +s+ e.
Proof.
  destruct a as [|x a]; [reflexivity|]. rewrite <- (abs_app (x :: a) [e]) by discriminate. reflexivity.
Qed.
Lemma path_dir_abs a e : Forall elem a -> elem e -> path_dir (abs_path (a ++ [e])) = abs_path a.
Proof.
  intros Ha (He1 & He2 & He3 & He4). rewrite abs_snoc. unfold path_dir.
  assert (E : cut_last "/" ((if a then "" else abs_path a) +s+ "/" +s+ e) = Some (if a then "" else abs_path a, e)).
  { apply cut_last_some. now split. }
  rewrite E. destruct a as [|x a]; [reflexivity|].
  unfold clean. assert (Ec : clean_elems (abs_path (x :: a) +s+ "/") = x :: a).
  { unfold clean_elems. change (rooted (abs_path (x :: a) +s+ "/")) with true.
    change (abs_path (x :: a) +s+ "/") with (abs_path (x :: a) +s+ String "/" ""). rewrite fold_clean_app. cbn [split_char fold_left].
    change (clean_step true (fold_left (clean_step true) (split_char "/" (abs_path (x :: a))) []) "") with (fold_left (clean_step true) (split_char "/" (abs_path (x :: a))) []).
    pose proof (clean_elems_abs (x :: a) Ha) as E1. unfold clean_elems in E1. now rewrite rooted_abs in E1. }
  rewrite Ec. reflexivity.
Qed.
Lemma path_base_abs a e : elem e -> path_base (abs_path (a ++ [e])) = e.
Proof.
  intros (He1 & He2 & He3 & He4). rewrite abs_snoc. set (p := if a then "" else abs_path a).
  unfold path_base. destruct (seqb_spec (p +s+ "/" +s+ e) "") as [E|_].
  { apply sapp_nil_inv in E as [_ E]. discriminate. }
  assert (T : trim_trailing_slashes (str_rev (p +s+ "/" +s+ e)) = str_rev (p +s+ "/" +s+ e)).
  { rewrite !str_rev_append. destruct (str_rev e) as [|c r] eqn:Er.
    - exfalso. apply He1. rewrite <- (str_rev_involutive e), Er. reflexivity.
    - cbn. destruct (Ascii.eqb_spec c "/") as [->|]; [|reflexivity]. exfalso.
      assert (H : has_char "/" e = true); [|congruence].
      rewrite <- (str_rev_involutive e), Er, str_rev_cons, has_char_app. cbn. now rewrite orb_true_r. }
  rewrite T, str_rev_involutive. destruct (seqb_spec (p +s+ "/" +s+ e) "") as [E|_].
  { apply sapp_nil_inv in E as [_ E]. discriminate. }
  assert (E : cut_last "/" (p +s+ "/" +s+ e) = Some (p, e)) by (apply cut_last_some; now split).
  now rewrite E.
Qed.

(** Clean is idempotent *)
Lemma rev_case {A} (l : list A) : l = [] \/ exists l' x, l = l' ++ [x].
Proof. destruct l as [|a l]; [now left|right]. destruct (@exists_last _ (a :: l)) as (l' & x & E); [discriminate|eauto]. Qed.
Definition kept (r : bool) (st : list string) : Prop :=
  exists l n, st = rev l ++ repeat ".." n /\ Forall elem l /\ (r = true -> n = 0).
Lemma kept_step r st e : has_char "/" e = false -> kept r st -> kept r (clean_step r st e).
Proof.
  intros He (l & n & -> & F & R). unfold clean_step. destruct (seqb_spec e "") as [E1|E1]; cbn [orb]; [now exists l, n|].
  destruct (seqb_spec e ".") as [E2|E2]; [now exists l, n|]. destruct (seqb_spec e "..") as [E3|E3].
  - destruct (rev_case l) as [->|(l' & x & ->)].
    + cbn [rev app]. destruct n as [|n]; cbn [repeat].
      * destruct r; [exists [], 0; auto|]. exists [], 1. split; [reflexivity|]. split; [constructor|discriminate].
      * change (seqb ".." "..") with true. cbn. rewrite E3. exists [], (S (S n)). split; [reflexivity|]. split; [constructor|]. intros Q. specialize (R Q). discriminate.
    + rewrite rev_app_distr. cbn [rev app]. apply Forall_app in F as [F1 F2]. inversion F2 as [|? ? (X1 & X2 & X3 & X4) _]; subst.
      rewrite (proj2 (seqb_neq _ _) X3). now exists l', n.
  - exists (l ++ [e]), n. split; [now rewrite rev_app_distr|]. split; [|exact R]. apply Forall_app. split; [exact F|].
    constructor; [|constructor]. repeat split; auto.
Qed.
Lemma kept_fold r pieces : Forall (fun x => has_char "/" x = false) pieces -> forall st, kept r st -> kept r (fold_left (clean_step r) pieces st).
Proof. induction 1 as [|e pieces H F IH]; intros st K; cbn; [exact K|]. apply IH. now apply kept_step. Qed.
Lemma fold_dots n : fold_left (clean_step false) (repeat ".." n) [] = repeat ".." n.
Proof.
  assert (G : forall m k, fold_left (clean_step false) (repeat ".." m) (repeat ".." k) = repeat ".." (m + k)).
  { induction m as [|m IH]; intros k; [reflexivity|]. cbn [repeat fold_left].
    assert (Q : clean_step false (repeat ".." k) ".." = repeat ".." (S k)) by (destruct k; reflexivity). rewrite Q, IH. f_equal. lia. }
  change (@nil string) with (repeat ".." 0) at 1. rewrite (G n 0). f_equal. lia.
Qed.
Lemma kept_refold r st : kept r st -> fold_left (clean_step r) (rev st) [] = st.
Proof.
  intros (l & n & -> & F & R). rewrite rev_app_distr, rev_involutive, fold_left_app.
  assert (D : rev (repeat ".." n) = repeat ".." n).
  { clear. induction n as [|n IH]; [reflexivity|]. cbn [repeat rev]. rewrite IH. change [".."] with (repeat ".." 1).
    rewrite <- repeat_app. replace (n + 1) with (S n) by lia. reflexivity. }
  rewrite D. destruct r.
  - rewrite (R eq_refl). cbn [repeat fold_left]. now rewrite clean_steps.
  - rewrite fold_dots. now rewrite clean_steps.
Qed.
Lemma kept_pieces r st : kept r st -> Forall (fun x => has_char "/" x = false /\ x <> "") st.
Proof.
  intros (l & n & -> & F & _). apply Forall_app. split.
  - apply Forall_rev. eapply Forall_impl; [|exact F]. intros a (A & _ & _ & B). auto.
  - apply Forall_forall. intros x X. apply repeat_spec in X. subst x. split; [reflexivity|discriminate].
Qed.
Lemma clean_nonempty p : clean p <> "".
Proof.
  unfold clean. destruct (rooted p); [discriminate|]. destruct (seqb_spec (join "/" (clean_elems p)) "") as [Q|Q]; [discriminate|exact Q].
Qed.
Lemma join_head_not_rooted l : Forall (fun x => has_char "/" x = false /\ x <> "") l -> rooted (join "/" l) = false.
Proof.
  intros H. unfold rooted. apply has_prefix_false. intros r E.
  destruct l as [|e l]; [discriminate|]. inversion H as [|? ? [H4 H1] Hl]; subst.
  destruct e as [|c e]; [contradiction|].
  assert (c = "/"%char) as ->. { destruct l; cbn in E; now injection E. }
  cbn in H4. discriminate.
Qed.
Lemma clean_idem p : clean (clean p) = clean p.
Proof.
  assert (K : kept (rooted p) (fold_left (clean_step (rooted p)) (split_char "/" p) [])).
  { apply kept_fold; [apply split_char_pieces|]. exists [], 0. auto. }
  set (st := fold_left _ _ _) in K. pose proof (kept_pieces _ _ K) as P. pose proof (kept_refold _ _ K) as F.
  assert (C : clean_elems p = rev st) by reflexivity.
  destruct (rev_case st) as [Z|(st' & x & Z)].
  { unfold clean. rewrite C, Z. destruct (rooted p); reflexivity. }
  assert (Pr : Forall (fun x => has_char "/" x = false /\ x <> "") (rev st)) by now apply Forall_rev.
  assert (N : rev st <> []) by (rewrite Z, rev_app_distr; discriminate).
  assert (Sp : split_char "/" (join "/" (rev st)) = rev st).
  { apply split_char_join; [exact N|]. eapply Forall_impl; [|exact Pr]. intros a [A _]. exact A. }
  assert (B : join "/" (rev st) <> "").
  { rewrite Z, rev_app_distr in *. cbn [rev app] in *. inversion Pr as [|? ? [_ X] _]; subst. destruct x; [congruence|]. destruct (rev st'); discriminate. }
  destruct (rooted p) eqn:R.
  - assert (Q : clean p = String "/" (join "/" (rev st))) by (unfold clean; now rewrite C, R). rewrite Q.
    unfold clean, clean_elems. change (rooted (String "/" (join "/" (rev st)))) with true.
    change (String "/" (join "/" (rev st))) with ("" +s+ String "/" (join "/" (rev st))). rewrite split_char_app by reflexivity. rewrite Sp.
    change (fold_left (clean_step true) ("" :: rev st) []) with (fold_left (clean_step true) (rev st) []). now rewrite F.
  - assert (Q : clean p = join "/" (rev st)) by (unfold clean; rewrite C, R, (proj2 (seqb_neq _ _) B); reflexivity). rewrite Q.
    unfold clean, clean_elems. rewrite (join_head_not_rooted _ Pr), Sp, F, (proj2 (seqb_neq _ _) B). reflexivity.
Qed.
