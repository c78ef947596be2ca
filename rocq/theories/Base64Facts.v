From Verif Require Import GoStr GoStrFacts Json JsonFacts Base64.
Local Open Scope N_scope.

Lemma below_64 n : n < 64 -> In n (map N.of_nat (seq 0 64)).
Proof. intros H. apply in_map_iff. exists (N.to_nat n). split; [apply N2Nat.id|]. apply in_seq. lia. Qed.
Lemma for_64 (P : N -> bool) : forallb P (map N.of_nat (seq 0 64)) = true -> forall n, n < 64 -> P n = true.
Proof. intros H n Hn. exact (proj1 (forallb_forall _ _) H n (below_64 n Hn)). Qed.
Lemma b64_val_char n : n < 64 -> b64_val (b64_char n) = Some n.
Proof.
  intros H. pose proof (for_64 (fun n => match b64_val (b64_char n) with Some m => N.eqb m n | None => false end)) as K.
  specialize (K ltac:(vm_compute; reflexivity) n H). cbv beta in K. destruct (b64_val (b64_char n)); [|discriminate].
  apply N.eqb_eq in K. now subst.
Qed.
Definition b64_safe (c : ascii) : bool := negb (Ascii.eqb c "010" || Ascii.eqb c "013" || high c).
Lemma b64_char_safe n : n < 64 -> b64_safe (b64_char n) = true.
Proof. revert n. apply for_64. vm_compute. reflexivity. Qed.
Lemma byte_lt c : N_of_ascii c < 256.
Proof. apply N_ascii_bounded. Qed.
Lemma byte_of_ascii c : byte (N_of_ascii c) = c.
Proof. apply ascii_N_embedding. Qed.

Lemma str3_ind (P : string -> Prop) : P "" -> (forall a, P (String a "")) -> (forall a b, P (String a (String b ""))) ->
  (forall a b c r, P r -> P (String a (String b (String c r)))) -> forall s, P s.
Proof.
  intros H0 H1 H2 H3 s.
  enough (K : P s /\ (forall a, P (String a s)) /\ (forall a b, P (String a (String b s)))) by apply K.
  induction s as [|c s (IH1 & IH2 & IH3)].
  - split; [exact H0|]. split; [exact H1|exact H2].
  - split; [apply IH2|]. split; [intros a; apply IH3|]. intros a b. apply H3. exact IH1.
Qed.

Lemma b64_enc_safe s : str_forall b64_safe (b64_enc s) = true.
Proof.
  induction s as [|a|a b|a b c r IH] using str3_ind; cbn [b64_enc]; [reflexivity|..];
    pose proof (byte_lt a); try pose proof (byte_lt b); try pose proof (byte_lt c); cbn [str_forall];
    rewrite !b64_char_safe; cbn [andb]; auto; try (apply N.mod_lt; lia);
    try (apply N.div_lt_upper_bound; lia).
Qed.
Lemma drop_breaks_safe s : str_forall b64_safe s = true -> drop_breaks s = s.
Proof.
  induction s as [|c s IH]; [reflexivity|]. cbn. intros H. apply andb_true_iff in H as [H1 H2].
  unfold b64_safe in H1. apply negb_true_iff in H1. apply orb_false_iff in H1 as [H1 _]. rewrite H1. now rewrite IH.
Qed.
Lemma b64_enc_ascii s : ascii_only (b64_enc s) = true.
Proof.
  unfold ascii_only. eapply str_forall_impl; [|apply b64_enc_safe]. intros c H. unfold b64_safe in H.
  apply negb_true_iff in H. apply orb_false_iff in H as [_ H]. now rewrite H.
Qed.

Ltac nd := match goal with |- _ = _ => zify; Z.to_euclidean_division_equations; lia end.
Lemma b64_round s : b64_dec (b64_enc s) = Some s.
Proof.
  unfold b64_dec. rewrite drop_breaks_safe by apply b64_enc_safe.
  induction s as [|a|a b|a b c r IH] using str3_ind; cbn [b64_enc].
  - reflexivity.
  - pose proof (byte_lt a) as Ha. set (x := N_of_ascii a) in *.
    cbn [b64_groups]. rewrite !b64_val_char; [|apply N.mod_lt; lia|apply N.div_lt_upper_bound; lia].
    replace (b64_val "=") with (@None N) by reflexivity. cbn [Ascii.eqb Bool.eqb andb]. change (seqb "" "") with true. cbn [andb].
    replace ((x * 16 / 64 * 64 + (x * 16) mod 64) / 16) with x by nd. unfold x. now rewrite byte_of_ascii.
  - pose proof (byte_lt a) as Ha. pose proof (byte_lt b) as Hb.
    set (x := N_of_ascii a) in *. set (y := N_of_ascii b) in *. set (n := x * 1024 + y * 4).
    cbn [b64_groups]. rewrite !b64_val_char; [|apply N.mod_lt; lia|apply N.mod_lt; lia|apply N.div_lt_upper_bound; unfold n; lia].
    replace (b64_val "=") with (@None N) by reflexivity. cbn [Ascii.eqb Bool.eqb andb]. change (seqb "" "") with true. cbn [andb].
    assert (E : n / 4096 * 4096 + (n / 64) mod 64 * 64 + n mod 64 = n) by nd. rewrite E.
    replace (n / 1024) with x by (unfold n; nd). replace (n / 4 mod 256) with y by (unfold n; nd).
    unfold x, y. now rewrite !byte_of_ascii.
  - pose proof (byte_lt a) as Ha. pose proof (byte_lt b) as Hb. pose proof (byte_lt c) as Hc.
    set (x := N_of_ascii a) in *. set (y := N_of_ascii b) in *. set (z := N_of_ascii c) in *. set (n := x * 65536 + y * 256 + z).
    cbn [b64_groups]. rewrite !b64_val_char;
      [|apply N.mod_lt; lia|apply N.mod_lt; lia|apply N.mod_lt; lia|apply N.div_lt_upper_bound; unfold n; lia].
    rewrite IH.
    assert (E : n / 262144 * 262144 + (n / 4096) mod 64 * 4096 + (n / 64) mod 64 * 64 + n mod 64 = n) by nd. rewrite E.
    replace (n / 65536) with x by (unfold n; nd). replace (n / 256 mod 256) with y by (unfold n; nd). replace (n mod 256) with z by (unfold n; nd).
    unfold x, y, z. now rewrite !byte_of_ascii.
Qed.
