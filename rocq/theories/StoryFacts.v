From Verif Require Import GoStr GoStrFacts Types Lockfile ReportSpec StorySpec.
(** ** numbers *)
Lemma value_app a b : forall acc, value acc (a +s+ b) = value (value acc a) b.
Proof. induction a as [|c a IH]; intros acc; cbn [append value]; [reflexivity|apply IH]. Qed.
Lemma digit_value (n : N) : (n < 10)%N -> nat_of_ascii (digit_char n) = 48 + N.to_nat n.
Proof. intros H. unfold digit_char, nat_of_ascii. rewrite N_ascii_embedding by lia. lia. Qed.
Lemma dec_fuel_app f : forall n acc, dec_fuel f n acc = dec_fuel f n "" +s+ acc.
Proof.
  induction f as [|f IH]; intros n acc; cbn [dec_fuel]; [reflexivity|]. destruct (n <? 10)%N; [reflexivity|].
  rewrite (IH _ (String _ acc)), (IH _ (String _ "")). now rewrite sapp_assoc.
Qed.
Lemma dec_fuel_decimal f : forall n, (n < 10 ^ N.of_nat f)%N -> (n <> 0)%N ->
  all_digits (dec_fuel f n "") /\ value 0 (dec_fuel f n "") = N.to_nat n /\ exists c r, dec_fuel f n "" = String c r /\ c <> "0"%char.
Proof.
  assert (AD : forall a b, all_digits a -> all_digits b -> all_digits (a +s+ b)) by (induction a as [|c a IH]; intros b; cbn [all_digits append]; [tauto|]; intros [A1 A2] B; auto).
  induction f as [|f IH]; intros n L NZ; [change (10 ^ N.of_nat 0)%N with 1%N in L; lia|]. cbn [dec_fuel].
  assert (M : (n mod 10 < 10)%N) by (apply N.mod_lt; lia). pose proof (digit_value _ M) as DV.
  assert (D1 : all_digits (String (digit_char (n mod 10)) "")).
  { cbn [all_digits]. rewrite DV. split; [|exact I]. change (nat_of_ascii "0") with 48. change (nat_of_ascii "9") with 57. clear - M. set (d := (n mod 10)%N) in *. clearbody d. lia. }
  assert (V1 : forall acc, value acc (String (digit_char (n mod 10)) "") = acc * 10 + N.to_nat (n mod 10)).
  { intros acc. cbn [value]. rewrite DV. change (nat_of_ascii "0") with 48. clear. set (d := (n mod 10)%N) in *. clearbody d. lia. }
  destruct (N.ltb_spec n 10) as [S|S].
  - split; [exact D1|]. rewrite V1. rewrite (N.mod_small n 10 S) in *. split; [lia|]. eexists. eexists. split; [reflexivity|].
    intros Q. rewrite Q in DV. change (nat_of_ascii "0") with 48 in DV. lia.
  - rewrite dec_fuel_app. pose proof (N.div_mod n 10 ltac:(lia)) as DM.
    assert (L2 : (n / 10 < 10 ^ N.of_nat f)%N). { apply N.div_lt_upper_bound; [lia|]. rewrite Nat2N.inj_succ, N.pow_succ_r' in L. exact L. }
    assert (NZ2 : (n / 10 <> 0)%N) by (intros Q; lia).
    destruct (IH _ L2 NZ2) as (A & B & c & r & C & D). split; [now apply AD|]. split.
    + rewrite value_app, B, V1. lia.
    + rewrite C. cbn. eauto.
Qed.
Lemma decimals n : decimal n (dec_of_nat n).
Proof.
  destruct n as [|n]; [split; [cbn; lia|reflexivity|discriminate|]; intros r Q; exact eq_refl|].
  unfold dec_of_nat, dec_of_N. set (m := N.of_nat (S n)).
  destruct (dec_fuel_decimal (S (N.size_nat m)) m) as (A & B & c & r & C & D); [|unfold m; lia|].
  - assert (Z : (m < 2 ^ N.of_nat (N.size_nat m))%N).
    { replace (N.of_nat (N.size_nat m)) with (N.size m); [apply N.size_gt|]. destruct m as [|p]; [reflexivity|]. cbn. clear. induction p; cbn; lia. }
    eapply N.lt_le_trans; [exact Z|]. etransitivity; [apply (N.pow_le_mono_l 2 10); lia|]. apply N.pow_le_mono_r; lia.
  - split; [exact A|rewrite B; unfold m; lia|rewrite C; discriminate|]. intros r' Q. rewrite C in Q. injection Q as Q _. contradiction.
Qed.

(** ** listings *)
Lemma listed_lines l : lf_pkgs l <> [] -> Forall plain_pkg (lf_pkgs l) -> Forall2 listed_line (lf_pkgs l) (lines (lockfile_string l)).
Proof.
  intros NE F. unfold lockfile_string, lines. change newline with (String "010" "").
  assert (PL : forall p, plain_pkg p -> listed_line p (pkg_line p) /\ has_char "010" (pkg_line p) = false).
  { intros [n v c e m] (A & B & C & D). unfold one_line in *. cbn [p_eco p_name p_version p_commit] in *. unfold pkg_line. cbn [p_eco p_name p_version p_commit]. split.
    - replace (if negb (seqb c "") then _ else _) with ("  " +s+ (if seqb e "" then "<unknown>" else e) +s+ ": " +s+ n +s+ (if seqb v "" then "" else "@" +s+ v) +s+ (if seqb c "" then "" else " (" +s+ c +s+ ")")).
      + apply (ll_intro (mkPkg n v c e m)); cbn [p_eco p_name p_version p_commit]; intros Q; try (apply seqb_neq in Q; now rewrite Q); subst; reflexivity.
      + destruct (seqb c ""), (seqb v ""); cbn [negb]; rewrite ?sapp_assoc; cbn [append]; rewrite ?sapp_nil_r; reflexivity.
    - destruct (seqb c ""), (seqb v ""), (seqb e ""); cbn [negb]; rewrite ?has_char_app; cbn [has_char orb Ascii.eqb]; rewrite ?A, ?B, ?C, ?D; reflexivity. }
  rewrite split_char_join.
  - clear NE. induction F as [|p ps P F IH]; cbn [map]; constructor; [apply PL, P|exact IH].
  - intros Q. apply NE. destruct (lf_pkgs l); [reflexivity|discriminate].
  - apply Forall_forall. intros x I. apply in_map_iff in I as (p & <- & I). rewrite Forall_forall in F. apply PL. auto.
Qed.
