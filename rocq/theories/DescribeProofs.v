From Verif Require Import GoStr GoStrFacts Utf8 Types Osv Describe DescribeSpec.

Lemma rune_len_pos s : s <> "" -> 1 <= rune_len s.
Proof.
  destruct s as [|a s1]; [contradiction|]. intros _. cbn [rune_len].
  repeat match goal with |- context [if ?b then _ else _] => destruct b end;
  repeat match goal with |- context [match ?s with "" => _ | String _ _ => _ end] => destruct s end;
  repeat match goal with |- context [if ?b then _ else _] => destruct b end; lia.
Qed.

Lemma runes_concat fuel : forall s, String.length s <= fuel -> concat_s (runes_fuel fuel s) = s.
Proof.
  induction fuel as [|f IH]; intros s H.
  - destruct s; [reflexivity|cbn in H; lia].
  - cbn [runes_fuel]. destruct s as [|a s1] eqn:E; [reflexivity|]. rewrite <- E in *.
    assert (1 <= rune_len s) by (apply rune_len_pos; congruence).
    cbn [concat_s fold_right]. unfold concat_s in IH. rewrite IH.
    + apply str_take_skip.
    + rewrite str_skip_length. assert (1 <= String.length s) by (rewrite E; cbn; lia). lia.
Qed.
Lemma runes_of_concat s : concat_s (runes_of s) = s.
Proof. apply runes_concat. lia. Qed.

Lemma concat_s_app a b : concat_s (a ++ b) = concat_s a +s+ concat_s b.
Proof. induction a as [|x a IH]; cbn; [reflexivity|]. unfold concat_s in IH. rewrite IH. now rewrite sapp_assoc. Qed.

Definition last_space (pre : list string) (at_ : option nat) : Prop :=
  match at_ with
  | None => Forall (fun c => is_space_rune c = false) pre
  | Some n => exists before sp between, pre = before ++ sp :: between /\ is_space_rune sp = true
      /\ Forall (fun c => is_space_rune c = false) between /\ n = String.length (concat_s before)
  end.

Lemma last_space_snoc pre c at_ : last_space pre at_ ->
  last_space (pre ++ [c]) (if is_space_rune c then Some (String.length (concat_s pre)) else at_).
Proof.
  intros H. destruct (is_space_rune c) eqn:E.
  - exists pre, c, []. auto.
  - destruct at_ as [n|]; cbn in *.
    + destruct H as (b & sp & w & -> & H1 & H2 & H3). exists b, sp, (w ++ [c]).
      rewrite <- app_assoc. split; [reflexivity|]. split; [exact H1|]. split; [|exact H3].
      apply Forall_app; auto.
    + apply Forall_app; auto.
Qed.

Lemma trunc_loop_spec limit : forall rs pre at_,
  last_space pre at_ -> List.length pre < limit \/ limit = 0 /\ pre = [] ->
  match trunc_loop rs limit (String.length (concat_s pre)) (List.length pre) at_ with
  | None => List.length (pre ++ rs) < limit \/ rs = []
  | Some n => limit <= List.length (pre ++ rs) /\ exists p1 at1,
      last_space p1 at1 /\ n = match at1 with None => limit | Some m => m end
      /\ (exists p2, pre ++ rs = p1 ++ p2) /\ (limit <> 0 -> List.length p1 = limit)
  end.
Proof.
  induction rs as [|c rs IH]; intros pre at_ L Hlt; cbn [trunc_loop].
  - now right.
  - pose proof (last_space_snoc pre c at_ L) as L'.
    destruct (Nat.leb_spec limit (List.length pre + 1)) as [Hle|Hgt].
    + split; [rewrite app_length; cbn; lia|].
      eexists (pre ++ [c]), _. split; [exact L'|].
      split; [reflexivity|]. split; [exists rs; now rewrite <- app_assoc|].
      intros Hn. rewrite app_length. cbn. lia.
    + specialize (IH (pre ++ [c]) _ L').
      rewrite concat_s_app, slen_app, app_length in IH. cbn [concat_s fold_right List.length] in IH.
      rewrite sapp_nil_r in IH. rewrite <- app_assoc in IH. cbn [app] in IH.
      specialize (IH ltac:(left; lia)).
      destruct (trunc_loop rs limit _ _ _) eqn:E; [exact IH|].
      destruct IH as [IH|IH]; [now left|]. subst rs. left. rewrite app_length. cbn. lia.
Qed.

Lemma truncate_spec s limit : 0 < limit -> shortened s limit (truncate s limit).
Proof.
  intros Hl. unfold truncate, shortened.
  pose proof (trunc_loop_spec limit (runes_of s) [] None (Forall_nil _) (or_introl Hl)) as H.
  cbn [concat_s fold_right String.length List.length app] in H.
  destruct (trunc_loop (runes_of s) limit 0 0 None) as [n|].
  - destruct H as (H1 & p1 & at1 & L & -> & (p2 & E) & Hp).
    specialize (Hp ltac:(lia)).
    assert (F : firstn limit (runes_of s) = p1).
    { rewrite E, <- Hp. rewrite firstn_app, Nat.sub_diag, firstn_all. cbn. apply app_nil_r. }
    right. destruct at1 as [m|]; cbn in L.
    + right. split; [exact H1|]. destruct L as (b & sp & w & -> & L1 & L2 & ->).
      exists b, sp, w. rewrite F. split; [reflexivity|]. split; [exact L1|]. split; [exact L2|].
      rewrite <- (runes_of_concat s) at 1. rewrite E, concat_s_app, concat_s_app, sapp_assoc.
      now rewrite str_take_app.
    + left. rewrite F. auto.
  - left. split; [|reflexivity]. destruct H as [H|H]; [exact H|]. rewrite H. cbn. lia.
Qed.

Lemma shortened_fun s limit a b : shortened s limit a -> shortened s limit b -> a = b.
Proof.
  assert (K : forall l1 (x : string) r1 l2 y r2, l1 ++ x :: r1 = l2 ++ y :: r2 ->
     is_space_rune x = true -> is_space_rune y = true ->
     Forall (fun c => is_space_rune c = false) r1 -> Forall (fun c => is_space_rune c = false) r2 -> l1 = l2).
  { induction l1 as [|a1 l1 IH]; intros x r1 l2 y r2 E Hx Hy F1 F2; destruct l2 as [|a2 l2]; cbn in E.
    - reflexivity.
    - injection E as -> ->. rewrite Forall_forall in F1. specialize (F1 y). rewrite F1 in Hy; [discriminate|].
      apply in_or_app; right; now left.
    - injection E as -> <-. rewrite Forall_forall in F2. specialize (F2 x). rewrite F2 in Hx; [discriminate|].
      apply in_or_app; right; now left.
    - injection E as -> E. f_equal. eapply IH; eauto. }
  assert (N : forall l b (sp : string) w, l = b ++ sp :: w -> is_space_rune sp = true ->
     Forall (fun c => is_space_rune c = false) l -> False).
  { intros l b0 sp w -> H F. rewrite Forall_forall in F. rewrite F in H; [discriminate|]. apply in_or_app; right; now left. }
  intros [[H1 ->]|[(H1 & F1 & ->)|(H1 & b1 & s1 & w1 & E1 & S1 & F1 & ->)]]
         [[H2 ->]|[(H2 & F2 & ->)|(H2 & b2 & s2 & w2 & E2 & S2 & F2 & ->)]]; try lia; auto.
  - exfalso. eapply N; eauto.
  - exfalso. eapply N; eauto.
  - rewrite E1 in E2. now rewrite (K _ _ _ _ _ _ E2 S1 S2 F1 F2).
Qed.

Lemma truncate_nonempty s : s <> "" -> truncate s 80 <> "".
Proof.
  intros H. unfold truncate. destruct (trunc_loop _ _ _ _ _); [|exact H].
  intros E. apply sapp_nil_inv in E as [_ E]. discriminate.
Qed.

Lemma describe_spec o : described o (describe o).
Proof.
  unfold described, describe, link.
  set (text := if seqb _ "" then _ +s+ "(no details available)" else _).
  exists text. split.
  - destruct (has_prefix (o_id o) "GHSA") eqn:E; cbn [seqb String.eqb negb].
    + cbn. reflexivity.
    + now rewrite sapp_nil_r.
  - subst text. destruct (seqb_spec (o_summary o) "") as [E|E].
    + right. rewrite E. cbn [String.append].
      destruct (seqb_spec (o_details o) "") as [D|D].
      * right. rewrite D. cbn. auto.
      * left. split; [reflexivity|]. split; [exact D|].
        destruct (seqb_spec (truncate (o_details o) 80) "") as [T|T]; [now apply truncate_nonempty in T|].
        apply truncate_spec. lia.
    + left. split; [exact E|]. now destruct (seqb_spec (o_summary o) "").
Qed.
