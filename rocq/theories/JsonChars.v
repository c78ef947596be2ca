(** String literals and numbers: Json.v against JsonSpec.v. *)
From Verif Require Import GoStr GoStrFacts Utf8 Json JsonFacts JsonSpec JsonUtf8.
Lemma get_bound s : forall n c, String.get n s = Some c -> n < String.length s.
Proof. induction s as [|d s IH]; intros [|n] c H; cbn in *; try discriminate; try lia. apply IH in H. lia. Qed.
Lemma below16 (P : N -> Prop) : Forall P (map N.of_nat (seq 0 16)) -> forall n, (n < 16)%N -> P n.
Proof. intros H n L. rewrite Forall_forall in H. apply H. apply in_map_iff. exists (N.to_nat n). split; [lia|]. apply in_seq. lia. Qed.
Lemma hexes_val c n : hexes c n <-> hex_val c = Some n.
Proof.
  split.
  - intros H. assert (L : (n < 16)%N) by (destruct H as [H|H]; apply get_bound in H; cbn in H; lia).
    revert n L c H. apply (below16 (fun n => forall c, hexes c n -> hex_val c = Some n)).
    repeat constructor; intros c [H|H]; vm_compute in H; injection H as <-; reflexivity.
  - pose (p c := match hex_val c with
      | Some n => match String.get (N.to_nat n) "0123456789abcdef", String.get (N.to_nat n) "0123456789ABCDEF" with
                  | Some x, Some y => Ascii.eqb x c || Ascii.eqb y c | _, _ => false end
      | None => true end).
    assert (Q : p c = true) by (apply for_all_ascii; vm_compute; reflexivity).
    intros H. unfold p in Q. rewrite H in Q. unfold hexes.
    destruct (String.get _ "0123456789abcdef") as [x|], (String.get _ "0123456789ABCDEF") as [y|]; try discriminate.
    apply orb_true_iff in Q as [Q|Q]; apply Ascii.eqb_eq in Q; subst; auto.
Qed.

Lemma hex4_eq a b c d n1 n2 n3 n4 : hexes a n1 -> hexes b n2 -> hexes c n3 -> hexes d n4 -> hex4 a b c d = Some (n1 * 4096 + n2 * 256 + n3 * 16 + n4)%N.
Proof. rewrite !hexes_val. unfold hex4. intros -> -> -> ->. f_equal. lia. Qed.
Lemma hex4_some a b c d n : hex4 a b c d = Some n -> escape_u (String "\" (String "u" (String a (String b (String c (String d "")))))) n.
Proof.
  unfold hex4. destruct (hex_val a) as [n1|] eqn:A; [|discriminate]. destruct (hex_val b) as [n2|] eqn:B; [|discriminate].
  destruct (hex_val c) as [n3|] eqn:C; [|discriminate]. destruct (hex_val d) as [n4|] eqn:D; [|discriminate].
  intros H. injection H as <-. apply hexes_val in A, B, C, D.
  replace (((n1 * 16 + n2) * 16 + n3) * 16 + n4)%N with (n1 * 4096 + n2 * 256 + n3 * 16 + n4)%N by lia. now apply eu.
Qed.
Lemma escape_u_inv u n : escape_u u n -> exists a b c d, u = String "\" (String "u" (String a (String b (String c (String d ""))))) /\ hex4 a b c d = Some n.
Proof. intros [a b c d n1 n2 n3 n4 A B C D]. exists a, b, c, d. split; [reflexivity|now apply hex4_eq]. Qed.
Lemma high_leading n : is_high n = true <-> leading n.
Proof. unfold is_high, leading. rewrite andb_true_iff, !N.leb_le. lia. Qed.
Lemma low_trailing n : is_low n = true <-> trailing n.
Proof. unfold is_low, trailing. rewrite andb_true_iff, !N.leb_le. lia. Qed.
Lemma not_surrogate n : is_high n = false -> is_low n = false -> ~ surrogate n.
Proof.
  intros H L S. assert (A : ~ leading n) by (rewrite <- high_leading; congruence).
  assert (B : ~ trailing n) by (rewrite <- low_trailing; congruence). unfold leading, trailing, surrogate in *. lia.
Qed.
Lemma hex4_bound a b c d n : hex4 a b c d = Some n -> (n < 65536)%N.
Proof.
  intros H. apply hex4_some in H. inversion H as [? ? ? ? n1 n2 n3 n4 A B C D]; subst.
  assert (K : forall x m, hexes x m -> (m < 16)%N) by (intros x m [G|G]; apply get_bound in G; cbn in G; lia).
  apply K in A, B, C, D. lia.
Qed.
Lemma escape_iff e c : escape e c <-> simple_escape e = Some c.
Proof.
  split; [intros []; reflexivity|]. unfold simple_escape, dq, bs.
  repeat match goal with |- context [Ascii.eqb e ?x] => destruct (Ascii.eqb_spec e x) as [->|?]; [intros H; injection H as <-; constructor|] end. discriminate.
Qed.

(** does the text start with a trailing surrogate? *)
Definition starts_low (s : string) : Prop := exists u m t, escape_u u m /\ trailing m /\ s = u +s+ t.
Definition after_high (n : N) (s3 : string) : option (string * string) :=
  match s3 with
  | String k1 (String k2 (String y1 (String y2 (String y3 (String y4 s4))))) =>
      if Ascii.eqb k1 bs && Ascii.eqb k2 "u" then
        match hex4 y1 y2 y3 y4 with
        | Some m => if is_low m then prepend (utf8_enc (pair_val n m)) (unescape s4) else prepend replacement (unescape s3)
        | None => prepend replacement (unescape s3)
        end
      else prepend replacement (unescape s3)
  | _ => prepend replacement (unescape s3)
  end.
Lemma after_low n u m t : escape_u u m -> trailing m -> after_high n (u +s+ t) = prepend (utf8_enc (pair_val n m)) (unescape t).
Proof.
  intros U M. apply escape_u_inv in U as (a & b & c & d & -> & H). cbn [String.append after_high]. rewrite !Ascii.eqb_refl. cbn [andb].
  rewrite H. apply low_trailing in M. now rewrite M.
Qed.
Lemma after_other n s : ~ starts_low s -> after_high n s = prepend replacement (unescape s).
Proof.
  intros H. unfold after_high. destruct s as [|k1 [|k2 [|y1 [|y2 [|y3 [|y4 s4]]]]]]; try reflexivity.
  destruct (Ascii.eqb_spec k1 bs) as [->|_]; [|reflexivity]. destruct (Ascii.eqb_spec k2 "u") as [->|_]; [|reflexivity]. cbn [andb].
  destruct (hex4 y1 y2 y3 y4) as [m|] eqn:E; [|reflexivity]. destruct (is_low m) eqn:L; [|reflexivity].
  destruct H. exists (String "\" (String "u" (String y1 (String y2 (String y3 (String y4 "")))))), m, s4. split; [now apply hex4_some|].
  split; [now apply low_trailing|reflexivity].
Qed.
Lemma starts_low_dec s : starts_low s \/ ~ starts_low s.
Proof.
  destruct s as [|k1 [|k2 [|y1 [|y2 [|y3 [|y4 s4]]]]]]; try (right; intros (u & m & t & U & _ & E); apply escape_u_inv in U as (a & b & c & d & -> & _); discriminate E).
  destruct (Ascii.eqb_spec k1 "\") as [->|K]; [|right; intros (u & m & t & U & _ & E); apply escape_u_inv in U as (a & b & c & d & -> & _); injection E as E _; contradiction].
  destruct (Ascii.eqb_spec k2 "u") as [->|K]; [|right; intros (u & m & t & U & _ & E); apply escape_u_inv in U as (a & b & c & d & -> & _); injection E as E _; contradiction].
  destruct (hex4 y1 y2 y3 y4) as [m|] eqn:E.
  - destruct (is_low m) eqn:L.
    + left. exists (String "\" (String "u" (String y1 (String y2 (String y3 (String y4 "")))))), m, s4.
      split; [now apply hex4_some|]. split; [now apply low_trailing|reflexivity].
    + right. intros (u & m' & t & U & M & Q). apply escape_u_inv in U as (a & b & c & d & -> & H). injection Q as <- <- <- <- <-.
      apply low_trailing in M. congruence.
  - right. intros (u & m' & t & U & M & Q). apply escape_u_inv in U as (a & b & c & d & -> & H). injection Q as <- <- <- <- <-. congruence.
Qed.
Lemma unescape_u u n s : escape_u u n ->
  unescape (u +s+ s) = if is_high n then after_high n s else if is_low n then prepend replacement (unescape s) else prepend (utf8_enc n) (unescape s).
Proof.
  intros U. apply escape_u_inv in U as (a & b & c & d & -> & H). cbn [String.append]. cbn [unescape]. rewrite H. reflexivity.
Qed.

Lemma unescape_sound n : forall s v r, String.length s <= n -> unescape s = Some (v, r) ->
  exists b, s = b +s+ String dq r /\ chars b v.
Proof.
  induction n as [|n IH]; intros s v r L H; [destruct s; [discriminate H|cbn in L; lia]|].
  destruct s as [|c s1]; [discriminate H|]. cbn [String.length] in L.
  destruct (Ascii.eqb c dq) eqn:Q.
  { cbn [unescape] in H. rewrite Q in H. injection H as <- <-. apply Ascii.eqb_eq in Q. subst c. exists "". split; [reflexivity|constructor]. }
  destruct (Ascii.eqb c bs) eqn:B.
  2:{ cbn [unescape] in H. rewrite Q, B in H. destruct (N.ltb_spec (code c) 32) as [|G]; [discriminate|].
      apply prepend_some in H as (v' & H & ->). apply IH in H as (b & -> & C); [|lia]. exists (String c b). split; [reflexivity|].
      apply ch_plain; [now intros -> | now intros -> |exact G|exact C]. }
  apply Ascii.eqb_eq in B. subst c. destruct s1 as [|e s2]; [discriminate H|]. cbn [String.length] in L.
  destruct (Ascii.eqb e "u") eqn:U.
  2:{ cbn [unescape] in H. rewrite U in H. replace (Ascii.eqb bs dq) with false in H by reflexivity. rewrite Ascii.eqb_refl in H.
      destruct (simple_escape e) as [d|] eqn:E; [|discriminate]. apply prepend_some in H as (v' & H & ->).
      apply IH in H as (b & -> & C); [|lia]. exists (String "\" (String e b)). split; [reflexivity|]. apply ch_escape; [now apply escape_iff|exact C]. }
  apply Ascii.eqb_eq in U. subst e. destruct s2 as [|x1 [|x2 [|x3 [|x4 s3]]]]; try discriminate H. cbn [String.length] in L.
  destruct (hex4 x1 x2 x3 x4) as [m|] eqn:X; [|cbn [unescape] in H; rewrite X in H; discriminate].
  pose proof (hex4_some _ _ _ _ _ X) as Ex. pose proof (hex4_bound _ _ _ _ _ X) as Bd.
  set (u := String "\" (String "u" (String x1 (String x2 (String x3 (String x4 "")))))) in *.
  change (unescape (u +s+ s3) = Some (v, r)) in H. rewrite (unescape_u _ _ _ Ex) in H.
  change (exists b, u +s+ s3 = b +s+ String dq r /\ chars b v).
  destruct (is_high m) eqn:Hi.
  - apply high_leading in Hi. destruct (starts_low_dec s3) as [(u2 & k & t & U2 & K & ->)|O].
    + rewrite (after_low _ _ _ _ U2 K) in H. apply prepend_some in H as (v' & H & ->).
      rewrite slen_app in L. apply IH in H as (b & -> & C); [|lia]. exists (u +s+ u2 +s+ b). split; [now rewrite !sapp_assoc|].
      eapply ch_pair; [exact Ex|exact U2|exact Hi|exact K| |exact C]. apply utf8_encodes. clear - Hi K. unfold pair_val, leading, trailing in *. lia.
    + rewrite after_other in H by exact O. apply prepend_some in H as (v' & H & ->). apply IH in H as (b & -> & C); [|lia].
      exists (u +s+ b). split; [now rewrite sapp_assoc|]. eapply ch_leading; eauto.
      intros u2 k s' U2 K ->. apply O. exists u2, k, (s' +s+ String dq r). rewrite sapp_assoc. auto.
  - destruct (is_low m) eqn:Lo.
    + apply prepend_some in H as (v' & H & ->). apply IH in H as (b & -> & C); [|lia].
      exists (u +s+ b). split; [now rewrite sapp_assoc|]. eapply ch_trailing; eauto. now apply low_trailing.
    + apply prepend_some in H as (v' & H & ->). apply IH in H as (b & -> & C); [|lia].
      exists (u +s+ b). split; [now rewrite sapp_assoc|]. eapply ch_u; eauto; [now apply not_surrogate|]. apply utf8_encodes. lia.
Qed.
Lemma not_hex c n : hexes c n -> c <> dq.
Proof. intros H ->. apply hexes_val in H. discriminate H. Qed.
Lemma within u m s r t : escape_u u m -> s +s+ String dq r = u +s+ t -> exists s', s = u +s+ s'.
Proof.
  intros [a b c d n1 n2 n3 n4 A B C D]. cbn [String.append]. intros E. apply not_hex in A, B, C, D.
  destruct s as [|k1 [|k2 [|y1 [|y2 [|y3 [|y4 s4]]]]]]; cbn [String.append] in E; injection E; intros; subst; try discriminate; try (exfalso; congruence).
  exists s4. reflexivity.
Qed.
Lemma chars_unescape s v : chars s v -> forall r, unescape (s +s+ String dq r) = Some (v, r).
Proof.
  induction 1 as [|c s v Q B G C IH|e c s v E C IH|u n c s v U S E C IH|u1 u2 n m c s v U1 U2 N M E C IH|u n s v U N C IH|u n s v U N F C IH]; intros r.
  - reflexivity.
  - cbn [String.append unescape]. apply Ascii.eqb_neq in Q, B. fold dq in Q. fold bs in B. rewrite Q, B.
    destruct (N.ltb_spec (code c) 32) as [K|_]; [unfold code in K; lia|]. now rewrite IH.
  - cbn [String.append unescape]. replace (Ascii.eqb "\" dq) with false by reflexivity. rewrite Ascii.eqb_refl.
    assert (Ascii.eqb e "u" = false) as -> by (destruct E; reflexivity). apply escape_iff in E. rewrite E. now rewrite IH.
  - rewrite sapp_assoc, (unescape_u _ _ _ U), IH.
    destruct (is_high n) eqn:H. { destruct S. apply high_leading in H. unfold leading, surrogate in *. lia. }
    destruct (is_low n) eqn:L. { destruct S. apply low_trailing in L. unfold trailing, surrogate in *. lia. }
    now rewrite (encodes_utf8 _ _ E).
  - rewrite !sapp_assoc, (unescape_u _ _ _ U1). apply high_leading in N. rewrite N, (after_low _ _ _ _ U2 M), IH.
    now rewrite (encodes_utf8 _ _ E).
  - rewrite sapp_assoc, (unescape_u _ _ _ U), IH.
    destruct (is_high n) eqn:H. { apply high_leading in H. unfold leading, trailing in *. lia. }
    apply low_trailing in N. now rewrite N.
  - rewrite sapp_assoc, (unescape_u _ _ _ U). apply high_leading in N. rewrite N, after_other.
    + now rewrite IH.
    + intros (u2 & m & t & U2 & M & E). destruct (within _ _ _ _ _ U2 E) as (s' & ->). exact (F _ _ _ U2 M eq_refl).
Qed.
Lemma literal_parse l w : literal l w -> exists s, l = String dq s /\ forall r, exists v, unescape (s +s+ r) = Some (v, r) /\ w = to_valid v.
Proof.
  intros [s v w' C W]. apply cleaned_iff in W. exists (s +s+ String dq ""). split; [reflexivity|]. intros r. exists v.
  rewrite sapp_assoc. cbn [String.append]. now rewrite (chars_unescape _ _ C).
Qed.
Lemma parse_literal s v r : unescape s = Some (v, r) -> exists l, String dq s = l +s+ r /\ literal l (to_valid v).
Proof.
  intros H. apply (unescape_sound _ _ _ _ (le_n _)) in H as (b & -> & C). exists (String dq (b +s+ String dq "")).
  cbn [String.append]. rewrite sapp_assoc. split; [reflexivity|]. eapply li; [exact C|]. now apply cleaned_iff.
Qed.

(** ** numbers *)
Lemma digit_iff c : is_digit c = true <-> digit c.
Proof. unfold is_digit, in_range, digit. rewrite andb_true_iff, !N.leb_le. tauto. Qed.
Lemma digits_iff s : digits s <-> s <> "" /\ str_forall is_digit s = true.
Proof.
  split.
  - induction 1 as [c D|c s D _ [_ IH]]; (split; [discriminate|]); cbn [str_forall]; apply digit_iff in D; rewrite D; [reflexivity|exact IH].
  - intros [N H]. induction s as [|c s IH]; [contradiction|]. cbn [str_forall] in H. apply andb_true_iff in H as [D H]. apply digit_iff in D.
    destruct s as [|d s]; [now constructor|]. apply dg_more; [exact D|]. apply IH; [discriminate|exact H].
Qed.
Lemma exponent_iff s : exponent s <-> valid_exp s = true.
Proof.
  assert (K : forall s, digits s -> match s with EmptyString => false | _ => str_forall is_digit s end = true).
  { intros t H. apply digits_iff in H as [N H]. now destruct t. }
  assert (K' : forall s, match s with EmptyString => false | _ => str_forall is_digit s end = true -> digits s).
  { intros t H. apply digits_iff. destruct t; [discriminate|]. split; [discriminate|exact H]. }
  split.
  - intros [|e t E D|e g t E G D]; [reflexivity| |]; cbn [valid_exp].
    + assert (Ascii.eqb e "e" || Ascii.eqb e "E" = true) as -> by (destruct E as [->| ->]; reflexivity).
      replace (match t with String d r => if Ascii.eqb d "+" || Ascii.eqb d "-" then r else t | _ => t end) with t; [now apply K|].
      destruct t as [|d r]; [reflexivity|]. apply digits_iff in D as [_ D]. cbn [str_forall] in D. apply andb_true_iff in D as [D _].
      destruct (Ascii.eqb_spec d "+") as [->|_]; [discriminate D|]. destruct (Ascii.eqb_spec d "-") as [->|_]; [discriminate D|]. reflexivity.
    + assert (Ascii.eqb e "e" || Ascii.eqb e "E" = true) as -> by (destruct E as [->| ->]; reflexivity).
      assert (Ascii.eqb g "+" || Ascii.eqb g "-" = true) as -> by (destruct G as [->| ->]; reflexivity). now apply K.
  - destruct s as [|e t]; [constructor|]. cbn [valid_exp]. destruct (Ascii.eqb e "e" || Ascii.eqb e "E") eqn:E; [|discriminate].
    assert (E' : e = "e"%char \/ e = "E"%char) by (apply orb_true_iff in E as [E|E]; apply Ascii.eqb_eq in E; auto).
    destruct t as [|d r]; [discriminate|]. destruct (Ascii.eqb d "+" || Ascii.eqb d "-") eqn:D; intros H.
    + apply K' in H. apply ex_sign; [exact E'| |exact H]. apply orb_true_iff in D as [D|D]; apply Ascii.eqb_eq in D; auto.
    + apply ex_some; [exact E'|]. now apply K'.
Qed.
Lemma span_digits_split s a b : span_digits s = (a, b) -> s = a +s+ b /\ str_forall is_digit a = true.
Proof.
  revert a b. induction s as [|c s IH]; intros a b H; cbn [span_digits] in H; [injection H as <- <-; auto|].
  destruct (is_digit c) eqn:D; [|injection H as <- <-; auto]. destruct (span_digits s) as [a' b'] eqn:E. injection H as <- <-.
  destruct (IH _ _ eq_refl) as [-> F]. split; [reflexivity|]. cbn [str_forall]. now rewrite D.
Qed.
Definition no_digit (s : string) : Prop := match s with String c _ => is_digit c = false | _ => True end.
Lemma span_digits_app a b : str_forall is_digit a = true -> no_digit b -> span_digits (a +s+ b) = (a, b).
Proof.
  induction a as [|c a IH]; intros A B; cbn [String.append].
  - destruct b as [|d b]; [reflexivity|]. cbn [span_digits]. cbn in B. now rewrite B.
  - cbn [str_forall] in A. apply andb_true_iff in A as [D A]. cbn [span_digits]. now rewrite D, (IH A B).
Qed.
Lemma exponent_start e : exponent e -> no_digit e /\ match e with String c _ => c = "e"%char \/ c = "E"%char | _ => True end.
Proof. intros [|e' t [->| ->] D|e' g t [->| ->] G D]; cbn; auto. Qed.
Lemma frac_other c s : c <> "."%char -> valid_frac (String c s) = valid_exp (String c s).
Proof. intros H. destruct c as [[] [] [] [] [] [] [] []]; try reflexivity. now destruct H. Qed.
Lemma frac_iff s : valid_frac s = true <-> exists f e, s = f +s+ e /\ fraction f /\ exponent e.
Proof.
  split.
  - destruct s as [|c s]; [intros _; exists "", ""; repeat constructor|].
    destruct (Ascii.eqb_spec c ".") as [->|N].
    + cbn [valid_frac]. destruct (span_digits s) as [ds r] eqn:E. intros H. apply andb_true_iff in H as [H1 H2].
      apply span_digits_split in E as [-> F]. exists (String "." ds), r. split; [reflexivity|]. split; [|now apply exponent_iff].
      constructor. apply digits_iff. split; [|exact F]. intros ->. discriminate H1.
    + rewrite frac_other by exact N. intros H. exists "", (String c s). split; [reflexivity|]. split; [constructor|now apply exponent_iff].
  - intros (f & e & -> & F & E). destruct F as [|t D].
    + cbn [String.append]. destruct e as [|c e]; [reflexivity|]. rewrite frac_other; [now apply exponent_iff|].
      apply exponent_start in E as [_ [->| ->]]; discriminate.
    + cbn [String.append valid_frac]. apply digits_iff in D as [N D]. rewrite span_digits_app; [|exact D|now apply exponent_start].
      apply exponent_iff in E. rewrite E. destruct t; [contradiction|reflexivity].
Qed.
Definition unsigned (s : string) : bool :=
  match s with
  | String "0"%char r => valid_frac r
  | _ => let (ds, r) := span_digits s in negb (seqb ds "") && valid_frac r
  end.
Lemma unsigned_other c s : c <> "0"%char -> unsigned (String c s) = let (ds, r) := span_digits (String c s) in negb (seqb ds "") && valid_frac r.
Proof. intros H. destruct c as [[] [] [] [] [] [] [] []]; try reflexivity. now destruct H. Qed.
Lemma num_minus s : valid_num (String "-" s) = unsigned s.
Proof. reflexivity. Qed.
Lemma num_plus c s : c <> "-"%char -> valid_num (String c s) = unsigned (String c s).
Proof. intros H. destruct c as [[] [] [] [] [] [] [] []]; try reflexivity. now destruct H. Qed.
Lemma frac_no_digit f e : fraction f -> exponent e -> no_digit (f +s+ e).
Proof. intros [|t _] E; [apply (exponent_start _ E)|reflexivity]. Qed.
Lemma unsigned_iff s : unsigned s = true <-> exists i f e, s = i +s+ f +s+ e /\ integer i /\ fraction f /\ exponent e.
Proof.
  split.
  - destruct s as [|c s]; [discriminate|]. destruct (Ascii.eqb_spec c "0") as [->|N].
    + cbn [unsigned]. intros H. apply frac_iff in H as (f & e & -> & F & E). exists "0", f, e. split; [reflexivity|]. split; [constructor|auto].
    + rewrite unsigned_other by exact N. destruct (span_digits (String c s)) as [ds r] eqn:E. intros H. apply andb_true_iff in H as [H1 H2].
      apply span_digits_split in E as [E F]. apply frac_iff in H2 as (f & e & -> & Ff & Ee). exists ds, f, e. split; [exact E|]. split; [|auto].
      destruct ds as [|d ds]; [discriminate H1|]. injection E as <- _. cbn [str_forall] in F. apply andb_true_iff in F as [D F]. apply digit_iff in D.
      destruct ds as [|d ds]; [now apply in_one|]. apply in_more; [exact D|exact N|]. apply digits_iff. split; [discriminate|exact F].
  - intros (i & f & e & -> & I & F & E).
    assert (V : valid_frac (f +s+ e) = true) by (apply frac_iff; eauto).
    assert (ND : no_digit (f +s+ e)) by now apply frac_no_digit.
    destruct I as [|c D N|c s D N S]; [exact V| |]; cbn [String.append]; rewrite unsigned_other by exact N; apply digit_iff in D.
    + change (String c (f +s+ e)) with (String c "" +s+ f +s+ e). rewrite (span_digits_app (String c "") (f +s+ e)) by (cbn [str_forall]; rewrite ?D; auto). exact V.
    + apply digits_iff in S as [_ S]. change (String c (s +s+ f +s+ e)) with (String c s +s+ f +s+ e). rewrite (span_digits_app (String c s) (f +s+ e)) by (cbn [str_forall]; rewrite ?D; auto). exact V.
Qed.
Lemma integer_start i : integer i -> exists c s, i = String c s /\ is_digit c = true /\ c <> "-"%char.
Proof.
  intros [|c D _|c s D _ _]; [exists "0"%char, ""; repeat split; discriminate|exists c, ""|exists c, s]; apply digit_iff in D; repeat split; auto; intros ->; discriminate D.
Qed.
Lemma number_iff s : number s <-> valid_num s = true.
Proof.
  split.
  - intros [i f e I F E|i f e I F E].
    + destruct (integer_start _ I) as (c & t & -> & _ & N). cbn [String.append]. rewrite num_plus by exact N. apply unsigned_iff. exists (String c t), f, e. auto.
    + rewrite num_minus. apply unsigned_iff. eauto 8.
  - destruct s as [|c s]; [discriminate|]. destruct (Ascii.eqb_spec c "-") as [->|N].
    + rewrite num_minus. intros H. apply unsigned_iff in H as (i & f & e & -> & I & F & E). now apply nm_minus.
    + rewrite num_plus by exact N. intros H. apply unsigned_iff in H as (i & f & e & -> & I & F & E). now apply nm_plus.
Qed.
Lemma digits_numch s : str_forall is_digit s = true -> str_forall is_numch s = true.
Proof. apply str_forall_impl. intros c H. unfold is_numch. now rewrite H. Qed.
Lemma number_chars s : number s -> str_forall is_numch s = true /\ exists c t, s = String c t /\ (is_digit c || Ascii.eqb c "-") = true.
Proof.
  assert (A : forall i f e, integer i -> fraction f -> exponent e -> str_forall is_numch (i +s+ f +s+ e) = true).
  { intros i f e I F E. rewrite !str_forall_app. rewrite !andb_true_iff. repeat split.
    - destruct I as [|c D _|c z D _ S]; [reflexivity| |]; apply digit_iff in D; apply digits_numch; cbn [str_forall]; rewrite D; [reflexivity|now apply digits_iff].
    - destruct F as [|z S]; [reflexivity|]. cbn [str_forall]. apply digits_iff in S as [_ S]. now rewrite (digits_numch _ S).
    - destruct E as [|e' t [->| ->] D|e' g t [->| ->] [->| ->] D]; [reflexivity|..]; apply digits_iff in D as [_ D]; cbn [str_forall]; now rewrite (digits_numch _ D). }
  intros [i f e I F E|i f e I F E]; (split; [now apply A|]).
  - destruct (integer_start _ I) as (c & t & -> & D & _). exists c, (t +s+ f +s+ e). rewrite D. split; reflexivity.
  - eexists _, _. split; [reflexivity|]. reflexivity.
Qed.
