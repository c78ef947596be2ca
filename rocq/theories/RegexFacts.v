(** Facts about the engine of Regex.v. *)
From Verif Require Import GoStr GoStrFacts Regex.
From Coq Require Import Lia Arith.

(** rests left after each admissible repetition count of a class, longest run first *)
Fixpoint runs (p : ascii -> bool) (s : string) : list string :=
  match s with
  | EmptyString => [EmptyString]
  | String c t => if p c then runs p t ++ [s] else [s]
  end.

(** longest prefix in the class, and what follows *)
Fixpoint span (p : ascii -> bool) (s : string) : string * string :=
  match s with
  | EmptyString => (EmptyString, EmptyString)
  | String c t => if p c then let '(a, b) := span p t in (String c a, b) else (EmptyString, s)
  end.

Lemma span_app : forall p s, fst (span p s) +s+ snd (span p s) = s.
Proof.
  induction s as [|c t IH]; cbn; [reflexivity|].
  destruct (p c); [|reflexivity].
  destruct (span p t) as [a b]; cbn in *. now rewrite IH.
Qed.

Lemma span_forall : forall p s, str_forall p (fst (span p s)) = true.
Proof.
  induction s as [|c t IH]; cbn; [reflexivity|].
  destruct (p c) eqn:E; [|reflexivity].
  destruct (span p t) as [a b]; cbn in *. now rewrite E, IH.
Qed.

Lemma span_stop : forall p s c t, snd (span p s) = String c t -> p c = false.
Proof.
  induction s as [|c0 t0 IH]; cbn; intros c t H; [discriminate|].
  destruct (p c0) eqn:E.
  - destruct (span p t0) as [a b] eqn:F; cbn in *. eapply IH; eauto.
  - cbn in H. now inversion H; subst.
Qed.

Lemma span_unique : forall p a b,
  str_forall p a = true -> (forall c t, b = String c t -> p c = false) ->
  span p (a +s+ b) = (a, b).
Proof.
  induction a as [|c a IH]; cbn; intros b Ha Hb.
  - destruct b as [|c t]; cbn; [reflexivity|]. now rewrite (Hb c t eq_refl).
  - apply andb_prop in Ha as [Hc Ha]. rewrite Hc, (IH b Ha Hb). reflexivity.
Qed.

Lemma runs_hd : forall p s, exists l, runs p s = snd (span p s) :: l.
Proof.
  induction s as [|c t IH]; cbn; [eauto|].
  destruct (p c); [|eauto].
  destruct IH as [l ->]. destruct (span p t) as [a b]; cbn. eauto.
Qed.

Lemma shorter_one : forall b c t cs, shorter (mkst b (String c t) cs) (mkst false t cs) = true.
Proof. intros. unfold shorter; cbn. apply Nat.leb_refl. Qed.

Definition at_rest (s : st) (r : string) : st :=
  mkst (if Nat.eqb (String.length r) (String.length (st_rest s)) then st_bot s else false)
       r (st_caps s).

Lemma at_rest_self : forall s, at_rest s (st_rest s) = s.
Proof. intros [b r c]; unfold at_rest; cbn. now rewrite Nat.eqb_refl. Qed.

Lemma runs_len : forall p s r, In r (runs p s) -> String.length r <= String.length s.
Proof.
  induction s as [|c t IH]; cbn; intros r H.
  - destruct H as [<-|[]]; cbn; lia.
  - destruct (p c).
    + apply in_app_or in H as [H|[<-|[]]]; cbn; [specialize (IH _ H); lia|lia].
    + destruct H as [<-|[]]; cbn; lia.
Qed.

Lemma ms_star_cls_g : forall p s, ms (Star true (Cls p)) s = map (at_rest s) (runs p (st_rest s)).
Proof.
  intros p [b r cs]. revert b. induction r as [|c t IH]; intros b.
  - cbn. reflexivity.
  - cbn [ms st_rest String.length star runs].
    destruct (p c) eqn:E.
    + cbn [st_caps filter]. rewrite shorter_one. cbn [flat_map]. rewrite app_nil_r.
      specialize (IH false). cbn [ms st_rest] in IH. rewrite IH.
      rewrite map_app. cbn [map].
      f_equal.
      * apply map_ext_in. intros r Hr. apply runs_len in Hr.
        unfold at_rest; cbn [st_rest String.length st_bot st_caps].
        replace (Nat.eqb (String.length r) (S (String.length t))) with false
          by (symmetry; apply Nat.eqb_neq; lia).
        destruct (Nat.eqb (String.length r) (String.length t)); reflexivity.
      * pose proof (at_rest_self (mkst b (String c t) cs)) as K. cbn [st_rest] in K. now rewrite K.
    + cbn. unfold at_rest; cbn. now rewrite Nat.eqb_refl.
Qed.

Lemma ms_star_cls_l : forall p s,
  ms (Star false (Cls p)) s = map (at_rest s) (rev (runs p (st_rest s))).
Proof.
  intros p [b r cs]. revert b. induction r as [|c t IH]; intros b.
  - cbn. reflexivity.
  - cbn [ms st_rest String.length star runs].
    destruct (p c) eqn:E.
    + cbn [st_caps filter]. rewrite shorter_one. cbn [flat_map]. rewrite app_nil_r.
      specialize (IH false). cbn [ms st_rest] in IH. rewrite IH.
      rewrite rev_app_distr. cbn [map rev app].
      f_equal.
      * pose proof (at_rest_self (mkst b (String c t) cs)) as K. cbn [st_rest] in K. now rewrite K.
      * apply map_ext_in. intros r Hr. apply in_rev in Hr. apply runs_len in Hr.
        unfold at_rest; cbn [st_rest String.length st_bot st_caps].
        replace (Nat.eqb (String.length r) (S (String.length t))) with false
          by (symmetry; apply Nat.eqb_neq; lia).
        destruct (Nat.eqb (String.length r) (String.length t)); reflexivity.
    + cbn. unfold at_rest; cbn. now rewrite Nat.eqb_refl.
Qed.

Lemma ms_plus_cls_g : forall p b s cs,
  ms (Plus true (Cls p)) (mkst b s cs) =
  match s with
  | EmptyString => []
  | String c t => if p c then map (fun r => mkst false r cs) (runs p t) else []
  end.
Proof.
  intros p b s cs.
  change (ms (Plus true (Cls p)) (mkst b s cs))
    with (flat_map (ms (Star true (Cls p))) (ms (Cls p) (mkst b s cs))).
  destruct s as [|c t]; [reflexivity|].
  change (ms (Cls p) (mkst b (String c t) cs)) with (if p c then [mkst false t cs] else []).
  destruct (p c); [|reflexivity].
  cbn [flat_map]. rewrite app_nil_r.
  rewrite ms_star_cls_g. cbn [st_rest].
  apply map_ext. intros r. unfold at_rest; cbn.
  now destruct (Nat.eqb (String.length r) (String.length t)).
Qed.

Lemma ms_lit : forall l b s cs,
  ms (Lit l) (mkst b s cs) =
  match strip_prefix l s with
  | Some t => [mkst (match l with EmptyString => b | _ => false end) t cs]
  | None => []
  end.
Proof.
  induction l as [|c l IH]; intros b s cs; [reflexivity|].
  destruct l as [|c' l'].
  - cbn. destruct s as [|d t]; cbn; [reflexivity|].
    destruct (Ascii.eqb c d); reflexivity.
  - change (ms (Lit (String c (String c' l'))) (mkst b s cs))
      with (flat_map (ms (Lit (String c' l'))) (ms (Chr c) (mkst b s cs))).
    cbn [ms Chr st_rest st_caps].
    destruct s as [|d t]; [reflexivity|].
    change (strip_prefix (String c (String c' l')) (String d t))
      with (if Ascii.eqb c d then strip_prefix (String c' l') t else None).
    destruct (Ascii.eqb c d); [|reflexivity].
    cbn [flat_map]. rewrite app_nil_r, IH. reflexivity.
Qed.

Lemma consumed_app : forall a b, consumed (a +s+ b) b = a.
Proof.
  intros a b. unfold consumed. rewrite slen_app.
  replace (String.length a + String.length b - String.length b) with (String.length a) by lia.
  apply str_take_app.
Qed.

Lemma star_suffix : forall g f,
  (forall s s', In s' (f s) -> exists c, st_rest s = c +s+ st_rest s') ->
  forall n s s', In s' (star g f n s) -> exists c, st_rest s = c +s+ st_rest s'.
Proof.
  intros g f Hf. induction n as [|n IH]; cbn; intros s s' H.
  - destruct H as [<-|[]]. exists EmptyString. reflexivity.
  - assert (K : s' = s \/ In s' (flat_map (star g f n) (filter (shorter s) (f s)))).
    { destruct g; [apply in_app_or in H as [H|[H|[]]]; auto|destruct H; auto]. }
    destruct K as [->|K]; [exists EmptyString; reflexivity|].
    apply in_flat_map in K as (m & Hm & K).
    apply filter_In in Hm as [Hm _].
    apply Hf in Hm as [c1 E1]. apply IH in K as [c2 E2].
    exists (c1 +s+ c2). rewrite E1, E2. now rewrite sapp_assoc.
Qed.

Lemma ms_suffix : forall r s s', In s' (ms r s) -> exists c, st_rest s = c +s+ st_rest s'.
Proof.
  induction r as [|p|a IHa b IHb|a IHa b IHb|g a IHa|n a IHa| |]; intros s s' H.
  - destruct H as [<-|[]]. exists EmptyString. reflexivity.
  - cbn in H. destruct (st_rest s) as [|c t]; [destruct H|].
    destruct (p c); [|destruct H]. destruct H as [<-|[]]. exists (String c EmptyString). reflexivity.
  - cbn in H. apply in_flat_map in H as (m & Hm & H).
    apply IHa in Hm as [c1 E1]. apply IHb in H as [c2 E2].
    exists (c1 +s+ c2). rewrite E1, E2. now rewrite sapp_assoc.
  - cbn in H. apply in_app_or in H as [H|H]; auto.
  - cbn in H. eapply star_suffix; eauto.
  - cbn in H. apply in_map_iff in H as (m & <- & H). cbn. auto.
  - cbn in H. destruct (st_bot s); [|destruct H]. destruct H as [<-|[]]. exists EmptyString. reflexivity.
  - cbn in H. destruct (st_rest s) eqn:E; [|destruct H]. destruct H as [<-|[]].
    exists EmptyString. now rewrite E.
Qed.

(** leftmost match: no match starts earlier *)
Lemma find_at_some : forall r s bot m,
  find_at bot r s = Some m ->
  exists s' l, ms r (mkst (match m_before m with EmptyString => bot | _ => false end)
                          (m_text m +s+ m_after m) []) = s' :: l
    /\ st_rest s' = m_after m /\ st_caps s' = m_caps m
    /\ s = m_before m +s+ m_text m +s+ m_after m
    /\ (forall u v, m_before m = u +s+ v -> v <> EmptyString ->
          ms r (mkst (match u with EmptyString => bot | _ => false end)
                     (v +s+ m_text m +s+ m_after m) []) = []).
Proof.
  intros r. induction s as [|c t IH]; intros bot m H.
  - cbn in H. destruct (ms r (mkst bot EmptyString [])) as [|x l] eqn:E; [discriminate|].
    injection H as <-. cbn [m_before m_text m_after m_caps].
    destruct (ms_suffix r (mkst bot EmptyString []) x) as [d Hd]; [rewrite E; left; reflexivity|].
    cbn in Hd. symmetry in Hd. destruct (sapp_nil_inv _ _ Hd) as [_ Hr]. rewrite Hr.
    exists x, l. cbn.
    repeat split; auto.
    intros u v Huv Hv. destruct u; [|discriminate]. cbn in Huv. congruence.
  - cbn [find_at] in H.
    destruct (ms r (mkst bot (String c t) [])) as [|x l] eqn:E.
    + destruct (find_at false r t) as [m'|] eqn:F; [|discriminate].
      injection H as <-. cbn [m_before m_text m_after m_caps].
      destruct (IH false m' F) as (s' & l & E1 & E2 & E3 & E4 & E5).
      exists s', l.
      split. { destruct (m_before m'); exact E1. }
      split; [exact E2|]. split; [exact E3|].
      split. { cbn. now rewrite <- E4. }
      intros u v Huv Hv. destruct u as [|c' u'].
      * cbn in Huv. subst v. cbn. rewrite <- E4. exact E.
      * cbn in Huv. injection Huv as -> Huv.
        specialize (E5 u' v Huv Hv). destruct u'; exact E5.
    + injection H as <-. cbn [m_before m_text m_after m_caps].
      destruct (ms_suffix r (mkst bot (String c t) []) x) as [d Hd]; [rewrite E; left; reflexivity|].
      cbn [st_rest] in Hd.
      assert (Hc : consumed (String c t) (st_rest x) = d) by (rewrite Hd; apply consumed_app).
      rewrite Hc, <- Hd. exists x, l. repeat split; auto.
      intros u v Huv Hv. destruct u; [|discriminate]. cbn in Huv. congruence.
Qed.

Lemma find_at_none : forall r s bot,
  find_at bot r s = None ->
  forall u v, s = u +s+ v ->
    ms r (mkst (match u with EmptyString => bot | _ => false end) v []) = [].
Proof.
  intros r. induction s as [|c t IH]; intros bot H u v Huv.
  - destruct u; [|discriminate]. cbn in Huv. subst v. cbn in H.
    destruct (ms r (mkst bot EmptyString [])) eqn:E; [reflexivity|discriminate].
  - cbn [find_at] in H.
    destruct (ms r (mkst bot (String c t) [])) as [|x l] eqn:E; [|discriminate].
    destruct (find_at false r t) as [m'|] eqn:F; [discriminate|].
    destruct u as [|c' u'].
    + cbn in Huv. now subst v.
    + cbn in Huv. injection Huv as -> Huv. specialize (IH false F u' v Huv).
      destruct u'; exact IH.
Qed.

(** a match at the very start is the leftmost one *)
Lemma find_at_here : forall r s bot x l,
  ms r (mkst bot s []) = x :: l ->
  find_at bot r s = Some (mkm EmptyString (consumed s (st_rest x)) (st_rest x) (st_caps x)).
Proof. intros r s bot x l H. destruct s; cbn [find_at]; rewrite H; reflexivity. Qed.

Lemma find_at_skip : forall r c t bot,
  ms r (mkst bot (String c t) []) = [] ->
  find_at bot r (String c t) =
  match find_at false r t with
  | Some m => Some (mkm (String c (m_before m)) (m_text m) (m_after m) (m_caps m))
  | None => None
  end.
Proof. intros r c t bot H. cbn [find_at]. now rewrite H. Qed.

(** an expression starting with ^ can only match at the start *)
Lemma find_bol_none : forall r s,
  (forall t, ms r (mkst false t []) = []) -> find_at false r s = None.
Proof.
  intros r s H. induction s as [|c t IH]; cbn [find_at]; rewrite H; [reflexivity|].
  now rewrite IH.
Qed.

Lemma find_bol : forall r s,
  (forall t, ms r (mkst false t []) = []) ->
  find r s = match ms r (mkst true s []) with
             | x :: _ => Some (mkm EmptyString (consumed s (st_rest x)) (st_rest x) (st_caps x))
             | [] => None
             end.
Proof.
  intros r s H. unfold find. destruct (ms r (mkst true s [])) as [|x l] eqn:E.
  - destruct s as [|c t]; cbn [find_at]; rewrite E; [reflexivity|].
    now rewrite find_bol_none.
  - now apply find_at_here with (l := l).
Qed.
