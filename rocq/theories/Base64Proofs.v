(** Base64.v against Base64Spec.v. *)
From Verif Require Import GoStr GoStrFacts Json JsonFacts Base64 Base64Facts Base64Spec.
From Verif Require JsonChars.
Local Open Scope N_scope.

Lemma sextet_bound c n : sextet c n -> n < 64.
Proof. intros H. apply JsonChars.get_bound in H. cbn in H. lia. Qed.
Lemma sextet_char c n : sextet c n <-> n < 64 /\ c = b64_char n.
Proof.
  split.
  - intros H. split; [now apply sextet_bound with c|]. unfold b64_char, sextet, b64_alphabet in *. now rewrite H.
  - intros [L ->]. unfold b64_char, sextet, b64_alphabet.
    pose proof (for_64 (fun n => match String.get (N.to_nat n) b64_alphabet with Some _ => true | None => false end) ltac:(vm_compute; reflexivity) n L) as K.
    cbv beta in K. unfold b64_alphabet in K. destruct (String.get _ _); [reflexivity|discriminate].
Qed.
Lemma sextet_val c n : sextet c n <-> b64_val c = Some n.
Proof.
  split.
  - intros H. apply sextet_char in H as [L ->]. now apply b64_val_char.
  - intros H. pose (p c := match b64_val c with Some n => match String.get (N.to_nat n) b64_alphabet with Some d => Ascii.eqb d c | None => false end | None => true end).
    assert (Q : p c = true) by (apply for_all_ascii; vm_compute; reflexivity). unfold p in Q. rewrite H in Q.
    unfold sextet. fold b64_alphabet. destruct (String.get (N.to_nat n) b64_alphabet) as [d|]; [|discriminate]. apply Ascii.eqb_eq in Q. now subst.
Qed.
Lemma octet_of n : n < 256 -> octet (byte n) = n.
Proof. apply N_ascii_embedding. Qed.
Lemma byte_octet a n : n = octet a -> byte n = a.
Proof. intros ->. apply byte_of_ascii. Qed.

Lemma groups_sound k : forall s t, (String.length s <= k)%nat -> b64_groups s = Some t -> base64 (fun _ => True) s t.
Proof.
  induction k as [|k IH]; intros s t L H.
  { destruct s; [|cbn in L; lia]. injection H as <-. constructor. }
  destruct s as [|c1 [|c2 [|c3 [|c4 r]]]]; try discriminate; [injection H as <-; constructor|]. cbn [String.length] in L. cbn [b64_groups] in H.
  destruct (b64_val c1) as [v1|] eqn:E1; [|discriminate]. destruct (b64_val c2) as [v2|] eqn:E2; [|discriminate].
  apply sextet_val in E1, E2. pose proof (sextet_bound _ _ E1) as B1. pose proof (sextet_bound _ _ E2) as B2.
  destruct (b64_val c3) as [v3|] eqn:E3.
  2:{ destruct (Ascii.eqb_spec c3 "=") as [->|]; [|discriminate]. destruct (Ascii.eqb_spec c4 "=") as [->|]; [|discriminate].
      destruct (seqb_spec r "") as [->|]; [|discriminate]. cbn [andb] in H. injection H as <-.
      eapply (b6_one _ c1 c2 v1 v2 _ ((v1 * 64 + v2) mod 16)); try assumption; [rewrite octet_of|apply N.mod_lt; lia|exact I]; zify; Z.to_euclidean_division_equations; lia. }
  apply sextet_val in E3. pose proof (sextet_bound _ _ E3) as B3.
  destruct (b64_val c4) as [v4|] eqn:E4.
  2:{ destruct (Ascii.eqb_spec c4 "=") as [->|]; [|discriminate]. destruct (seqb_spec r "") as [->|]; [|discriminate]. cbn [andb] in H. injection H as <-.
      eapply (b6_two _ c1 c2 c3 v1 v2 v3 _ _ ((v1 * 4096 + v2 * 64 + v3) mod 4)); try assumption; [rewrite !octet_of|apply N.mod_lt; lia|exact I]; zify; Z.to_euclidean_division_equations; lia. }
  apply sextet_val in E4. pose proof (sextet_bound _ _ E4) as B4.
  destruct (b64_groups r) as [t'|] eqn:G; [|discriminate]. injection H as <-. apply IH in G; [|lia].
  eapply (b6_more _ c1 c2 c3 c4 v1 v2 v3 v4); try assumption. rewrite !octet_of; zify; Z.to_euclidean_division_equations; lia.
Qed.
Lemma groups_complete P s t : base64 P s t -> b64_groups s = Some t.
Proof.
  induction 1 as [|c1 c2 v1 v2 a low S1 S2 E L _|c1 c2 c3 v1 v2 v3 a b low S1 S2 S3 E L _|c1 c2 c3 c4 v1 v2 v3 v4 a b c s t S1 S2 S3 S4 E _ IH]; [reflexivity|..]; cbn [b64_groups].
  - apply sextet_val in S1, S2. rewrite S1, S2. replace (b64_val "=") with (@None N) by reflexivity. rewrite Ascii.eqb_refl. change (seqb "" "") with true. cbn [andb].
    rewrite (byte_octet a); [reflexivity|]. zify; Z.to_euclidean_division_equations; lia.
  - apply sextet_val in S1, S2, S3. rewrite S1, S2, S3. replace (b64_val "=") with (@None N) by reflexivity. rewrite Ascii.eqb_refl. change (seqb "" "") with true. cbn [andb].
    pose proof (byte_lt a). pose proof (byte_lt b).
    rewrite (byte_octet a), (byte_octet b); [reflexivity|..]; zify; Z.to_euclidean_division_equations; lia.
  - apply sextet_val in S1, S2, S3, S4. rewrite S1, S2, S3, S4, IH. pose proof (byte_lt a). pose proof (byte_lt b). pose proof (byte_lt c).
    rewrite (byte_octet a), (byte_octet b), (byte_octet c); [reflexivity|..]; zify; Z.to_euclidean_division_equations; lia.
Qed.
Lemma broken_iff s t : broken s t <-> drop_breaks s = t.
Proof.
  split.
  - induction 1 as [|c s t C _ IH|c s t C1 C2 _ IH]; [reflexivity|..]; cbn [drop_breaks].
    + destruct C as [->| ->]; exact IH.
    + apply Ascii.eqb_neq in C1, C2. rewrite C1, C2. cbn [orb]. now rewrite IH.
  - revert t. induction s as [|c s IH]; intros t H; cbn [drop_breaks] in H; [subst; constructor|].
    destruct (Ascii.eqb_spec c "010") as [->|C1]; [apply br_break; auto|]. destruct (Ascii.eqb_spec c "013") as [->|C2]; [apply br_break; auto|].
    cbn [orb] in H. subst t. apply br_keep; auto.
Qed.
Theorem dec_iff s t : b64_dec s = Some t <-> base64_read s t.
Proof.
  unfold b64_dec, base64_read. split.
  - intros H. exists (drop_breaks s). split; [now apply broken_iff|]. exact (groups_sound _ _ _ (le_n _) H).
  - intros (u & B & H). apply broken_iff in B. subst u. exact (groups_complete _ _ _ H).
Qed.
Theorem enc_iff t s : b64_enc t = s <-> base64_of t s.
Proof.
  unfold base64_of. split.
  - intros <-. induction t as [|a|a b|a b c r IH] using str3_ind; cbn [b64_enc]; [constructor|..].
    + pose proof (byte_lt a). eapply (b6_one _ _ _ _ _ _ 0); [apply sextet_char; split; [|reflexivity]|apply sextet_char; split; [|reflexivity]|..|reflexivity]; zify; Z.to_euclidean_division_equations; lia.
    + pose proof (byte_lt a). pose proof (byte_lt b).
      eapply (b6_two _ _ _ _ _ _ _ _ _ 0); [apply sextet_char; split; [|reflexivity]|apply sextet_char; split; [|reflexivity]|apply sextet_char; split; [|reflexivity]|..|reflexivity]; zify; Z.to_euclidean_division_equations; lia.
    + pose proof (byte_lt a). pose proof (byte_lt b). pose proof (byte_lt c).
      eapply b6_more; [apply sextet_char; split; [|reflexivity]|apply sextet_char; split; [|reflexivity]|apply sextet_char; split; [|reflexivity]|apply sextet_char; split; [|reflexivity]|..|exact IH]; zify; Z.to_euclidean_division_equations; lia.
  - induction 1 as [|c1 c2 v1 v2 a low S1 S2 E L ->|c1 c2 c3 v1 v2 v3 a b low S1 S2 S3 E L ->|c1 c2 c3 c4 v1 v2 v3 v4 a b c s t S1 S2 S3 S4 E _ IH]; [reflexivity|..]; cbn [b64_enc].
    + apply sextet_char in S1 as [L1 ->], S2 as [L2 ->]. replace (octet a * 16) with (v1 * 64 + v2) by lia.
      replace ((v1 * 64 + v2) / 64) with v1 by (zify; Z.to_euclidean_division_equations; lia). replace ((v1 * 64 + v2) mod 64) with v2 by (zify; Z.to_euclidean_division_equations; lia). reflexivity.
    + apply sextet_char in S1 as [L1 ->], S2 as [L2 ->], S3 as [L3 ->]. replace (octet a * 1024 + octet b * 4) with ((v1 * 64 + v2) * 64 + v3) by lia. set (n := (v1 * 64 + v2) * 64 + v3).
      replace (n / 4096) with v1 by (unfold n; zify; Z.to_euclidean_division_equations; lia). replace (n / 64 mod 64) with v2 by (unfold n; zify; Z.to_euclidean_division_equations; lia).
      replace (n mod 64) with v3 by (unfold n; zify; Z.to_euclidean_division_equations; lia). reflexivity.
    + apply sextet_char in S1 as [L1 ->], S2 as [L2 ->], S3 as [L3 ->], S4 as [L4 ->]. replace (octet a * 65536 + octet b * 256 + octet c) with (((v1 * 64 + v2) * 64 + v3) * 64 + v4) by lia. set (n := ((v1 * 64 + v2) * 64 + v3) * 64 + v4).
      replace (n / 262144) with v1 by (unfold n; zify; Z.to_euclidean_division_equations; lia). replace (n / 4096 mod 64) with v2 by (unfold n; zify; Z.to_euclidean_division_equations; lia).
      replace (n / 64 mod 64) with v3 by (unfold n; zify; Z.to_euclidean_division_equations; lia). replace (n mod 64) with v4 by (unfold n; zify; Z.to_euclidean_division_equations; lia). now rewrite IH.
Qed.
