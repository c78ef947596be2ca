(** The UTF-8 of Utf8.v and Json.v is that of JsonSpec.v. *)
From Verif Require Import GoStr GoStrFacts Utf8 Json JsonFacts JsonSpec.

Ltac euclid := Z.to_euclidean_division_equations.
Lemma byte_inj n c : byte n c -> c = ascii_of_N n.
Proof. intros <-. symmetry. apply ascii_N_embedding. Qed.
Lemma byte_of n : (n < 256)%N -> byte n (ascii_of_N n).
Proof. intros H. unfold byte. now apply N_ascii_embedding. Qed.
Lemma byte_bound n c : byte n c -> (n < 256)%N.
Proof. intros <-. apply N_ascii_bounded. Qed.
Lemma in_true lo hi n c : byte n c -> (lo <= n <= hi)%N -> byte_in lo hi c = true.
Proof. intros <- H. unfold byte_in. apply andb_true_iff; split; apply N.leb_le; lia. Qed.
Lemma in_false lo hi n c : byte n c -> (n < lo \/ hi < n)%N -> byte_in lo hi c = false.
Proof. intros <- H. unfold byte_in. apply andb_false_iff. destruct H; [left|right]; apply N.leb_gt; lia. Qed.
Lemma in_inv lo hi c : byte_in lo hi c = true -> (lo <= N_of_ascii c <= hi)%N.
Proof. unfold byte_in. intros H. apply andb_true_iff in H as [A B]. apply N.leb_le in A. apply N.leb_le in B. lia. Qed.
Lemma high_byte n c : byte n c -> (128 <= n)%N -> high c = true.
Proof. intros <- H. now apply N.leb_le. Qed.

Lemma character_valid c : character c -> valid_rune c.
Proof.
  intros (n & [S1 S2] & H). unfold surrogate in S2. destruct H as [c B L|a b c d B1 B2 A1 A2 -> A3|a b x c d e B1 B2 B3 A1 A2 A3 -> A4|a b x y c d e f B1 B2 B3 B4 A1 A2 A3 A4 -> A5].
  - left. exists c. split; [reflexivity|]. rewrite <- B in L. now apply N.leb_gt.
  - right. split; [cbn; lia|]. split; [cbn; rewrite (high_byte _ _ B1), (high_byte _ _ B2) by lia; reflexivity|].
    intros t. cbn [String.append rune_len String.length]. unfold is_cont.
    rewrite (in_true 194 223 _ _ B1), (in_true 128 191 _ _ B2) by lia. reflexivity.
  - right. split; [cbn; lia|]. split; [cbn; rewrite (high_byte _ _ B1), (high_byte _ _ B2), (high_byte _ _ B3) by lia; reflexivity|].
    intros t. cbn [String.append rune_len String.length]. unfold is_cont.
    rewrite (in_false 194 223 _ _ B1), (in_true 224 239 _ _ B1), (in_true 128 191 _ _ B3), (in_true _ _ _ _ B2); [reflexivity| |lia..].
    destruct (N.eqb_spec (N_of_ascii c) 224), (N.eqb_spec (N_of_ascii c) 237); unfold byte in B1; lia.
  - right. split; [cbn; lia|].
    split; [cbn; rewrite (high_byte _ _ B1), (high_byte _ _ B2), (high_byte _ _ B3), (high_byte _ _ B4) by lia; reflexivity|].
    intros t. cbn [String.append rune_len String.length]. unfold is_cont.
    rewrite (in_false 194 223 _ _ B1), (in_false 224 239 _ _ B1), (in_true 240 244 _ _ B1), (in_true 128 191 _ _ B3), (in_true 128 191 _ _ B4), (in_true _ _ _ _ B2); [reflexivity| |lia..].
    destruct (N.eqb_spec (N_of_ascii c) 240), (N.eqb_spec (N_of_ascii c) 244); unfold byte in B1; lia.
Qed.

Lemma part b c : (b <= N_of_ascii c)%N -> byte (b + (N_of_ascii c - b)) c.
Proof. unfold byte. lia. Qed.
Lemma valid_character r : valid_rune r -> character r.
Proof.
  intros [(a & -> & H)|(L & _ & H)].
  - exists (N_of_ascii a). apply N.leb_gt in H. unfold code in H. split; [split; [lia|unfold surrogate; lia]|].
    now apply en_1.
  - specialize (H ""). rewrite sapp_nil_r in H. destruct r as [|a s1]; [cbn in L; lia|].
    cbn [rune_len] in H. unfold is_cont in H.
    destruct (byte_in 194 223 a) eqn:E1.
    { destruct s1 as [|b s2]; [cbn in *; lia|]. destruct (byte_in 128 191 b) eqn:E2; [|cbn in *; lia].
      destruct s2; [|cbn in H; lia]. apply in_inv in E1, E2.
      exists ((N_of_ascii a - 192) * 64 + (N_of_ascii b - 128))%N. split; [unfold scalar, surrogate; lia|].
      apply (en_2 _ _ _ _ _ (part 192 a ltac:(lia)) (part 128 b ltac:(lia))); lia. }
    destruct (byte_in 224 239 a) eqn:E2.
    { destruct s1 as [|b [|c s3]]; [cbn in *; lia..|].
      destruct (byte_in _ _ b && byte_in 128 191 c) eqn:E3; [|cbn in *; lia].
      destruct s3; [|cbn in H; lia]. apply andb_true_iff in E3 as [E3 E4]. apply in_inv in E2, E3, E4.
      assert (Q : ((N_of_ascii a = 224 -> 160 <= N_of_ascii b) /\ (N_of_ascii a = 237 -> N_of_ascii b <= 159) /\ 128 <= N_of_ascii b <= 191)%N).
      { destruct (N.eqb_spec (N_of_ascii a) 224), (N.eqb_spec (N_of_ascii a) 237); lia. }
      exists (((N_of_ascii a - 224) * 64 + (N_of_ascii b - 128)) * 64 + (N_of_ascii c - 128))%N. split; [unfold scalar, surrogate; lia|].
      apply (en_3 _ _ _ _ _ _ _ (part 224 a ltac:(lia)) (part 128 b ltac:(lia)) (part 128 c ltac:(lia))); lia. }
    destruct (byte_in 240 244 a) eqn:E3; [|cbn in *; lia].
    destruct s1 as [|b [|c [|d s4]]]; [cbn in *; lia..|].
    destruct (byte_in _ _ b && byte_in 128 191 c && byte_in 128 191 d) eqn:E4; [|cbn in *; lia].
    destruct s4; [|cbn in H; lia]. apply andb_true_iff in E4 as [E4 E6]. apply andb_true_iff in E4 as [E4 E5]. apply in_inv in E3, E4, E5, E6.
    assert (Q : ((N_of_ascii a = 240 -> 144 <= N_of_ascii b) /\ (N_of_ascii a = 244 -> N_of_ascii b <= 143) /\ 128 <= N_of_ascii b <= 191)%N).
    { destruct (N.eqb_spec (N_of_ascii a) 240), (N.eqb_spec (N_of_ascii a) 244); lia. }
    exists ((((N_of_ascii a - 240) * 64 + (N_of_ascii b - 128)) * 64 + (N_of_ascii c - 128)) * 64 + (N_of_ascii d - 128))%N. split; [unfold scalar, surrogate; lia|].
    apply (en_4 _ _ _ _ _ _ _ _ _ (part 240 a ltac:(lia)) (part 128 b ltac:(lia)) (part 128 c ltac:(lia)) (part 128 d ltac:(lia))); lia.
Qed.

Lemma utf8_encodes n : (n <= 0x10FFFF)%N -> encodes n (utf8_enc n).
Proof.
  intros L. unfold utf8_enc.
  destruct (N.ltb_spec n 128). { apply en_1; [apply byte_of; lia|lia]. }
  destruct (N.ltb_spec n 2048).
  { apply (en_2 n (n / 64) (n mod 64)); try apply byte_of; zify; euclid; lia. }
  destruct (N.ltb_spec n 65536).
  { apply (en_3 n (n / 4096) ((n / 64) mod 64) (n mod 64)); try apply byte_of; zify; euclid; lia. }
  apply (en_4 n (n / 262144) ((n / 4096) mod 64) ((n / 64) mod 64) (n mod 64)); try apply byte_of; zify; euclid; lia.
Qed.
Lemma encodes_utf8 n c : encodes n c -> c = utf8_enc n.
Proof.
  intros H. unfold utf8_enc. destruct H as [c B L|a b c d B1 B2 A1 A2 N A3|a b x c d e B1 B2 B3 A1 A2 A3 N A4|a b x y c d e f B1 B2 B3 B4 A1 A2 A3 A4 N A5].
  - destruct (N.ltb_spec n 128); [|lia]. now rewrite (byte_inj _ _ B).
  - destruct (N.ltb_spec n 128); [lia|]. destruct (N.ltb_spec n 2048); [|lia].
    rewrite (byte_inj _ _ B1), (byte_inj _ _ B2). repeat f_equal; zify; euclid; lia.
  - destruct (N.ltb_spec n 128); [lia|]. destruct (N.ltb_spec n 2048); [lia|]. destruct (N.ltb_spec n 65536); [|lia].
    rewrite (byte_inj _ _ B1), (byte_inj _ _ B2), (byte_inj _ _ B3). repeat f_equal; zify; euclid; lia.
  - destruct (N.ltb_spec n 128); [lia|]. destruct (N.ltb_spec n 2048); [lia|]. destruct (N.ltb_spec n 65536); [lia|].
    rewrite (byte_inj _ _ B1), (byte_inj _ _ B2), (byte_inj _ _ B3), (byte_inj _ _ B4). repeat f_equal; zify; euclid; lia.
Qed.
Lemma replacement_unknown : replacement = unknown.
Proof. reflexivity. Qed.

(** ** cleaning *)
Lemma rune_len_pos a s : 1 <= rune_len (String a s).
Proof. destruct (rune_len_cases (String a s)) as [(? & ? & _ & ->)|(? & ? & _ & -> & L & _)]; [discriminate|lia|lia]. Qed.
Lemma runes_fuel_more f : forall g s, String.length s <= f -> String.length s <= g -> runes_fuel f s = runes_fuel g s.
Proof.
  induction f as [|f IH]; intros g s F G.
  - destruct s; [|cbn in F; lia]. destruct g; reflexivity.
  - destruct g as [|g]; [destruct s; [reflexivity|cbn in G; lia]|]. cbn [runes_fuel]. destruct s as [|a s]; [reflexivity|].
    f_equal. pose proof (rune_len_pos a s). apply IH; rewrite str_skip_length; cbn [String.length] in *; lia.
Qed.
Lemma runes_step r t : r <> "" -> rune_len (r +s+ t) = String.length r -> runes_of (r +s+ t) = r :: runes_of t.
Proof.
  intros R L. unfold runes_of. destruct r as [|a r]; [easy|]. cbn [String.append String.length runes_fuel].
  cbn [String.append] in L. rewrite L. change (String a (r +s+ t)) with (String a r +s+ t). rewrite str_take_app, str_skip_app.
  f_equal. apply runes_fuel_more; rewrite ?slen_app; lia.
Qed.
Lemma valid_step r t : r <> "" -> rune_len (r +s+ t) = String.length r -> to_valid (r +s+ t) = val_rune r +s+ to_valid t.
Proof. intros R L. unfold to_valid. now rewrite runes_step by auto. Qed.
Lemma character_step c t : character c -> to_valid (c +s+ t) = c +s+ to_valid t.
Proof.
  intros H. apply character_valid in H. rewrite valid_step; [|destruct H as [(? & -> & _)|(L & _)]; [easy|intros ->; cbn in L; lia]|now apply valid_rune_len].
  f_equal. destruct H as [(a & -> & H)|(L & _)]; cbn; [fold (high a); now rewrite H|].
  destruct c as [|? [|? ?]]; [reflexivity|cbn in L; lia|reflexivity].
Qed.
(** the first byte either starts a character or does not *)
Lemma first_char b s : (exists c t, character c /\ String b s = c +s+ t)
  \/ (forall c t, character c -> String b s <> c +s+ t) /\ rune_len (String b s) = 1 /\ high b = true.
Proof.
  destruct (rune_len_cases (String b s)) as [(a & t & E & L)|(r & t & E & L & H2 & Hh & Ht)]; [discriminate| |].
  - injection E as <- <-. destruct (high b) eqn:H.
    + right. split; [|auto]. intros c t C E. apply character_valid in C. rewrite E, valid_rune_len in L by assumption.
      destruct C as [(a & -> & A)|(C & _)]; [|lia]. injection E as <- _. congruence.
    + left. exists (String b ""), s. split; [apply valid_character; left; now exists b|reflexivity].
  - left. exists r, t. split; [apply valid_character; right; auto|assumption].
Qed.
Lemma cleaned_valid s : cleaned s (to_valid s).
Proof.
  remember (String.length s) as n eqn:N. assert (L : String.length s <= n) by lia. clear N. revert s L.
  induction n as [|n IH]; intros s L.
  - destruct s; [constructor|cbn in L; lia].
  - destruct s as [|b s]; [constructor|]. destruct (first_char b s) as [(c & t & C & E)|(C & R & H)].
    + rewrite E, character_step by assumption. apply cl_char; [assumption|]. apply IH.
      assert (0 < String.length c). { pose proof (character_valid _ C) as [(? & -> & _)|(? & _)]; cbn; lia. }
      apply (f_equal String.length) in E. rewrite slen_app in E. lia.
    + change (String b s) with (String b "" +s+ s) at 2. rewrite valid_step by (easy || exact R). cbn [val_rune]. fold (high b). rewrite H.
      apply cl_byte; [assumption|]. apply IH. cbn in L. lia.
Qed.
Lemma cleaned_to_valid s v : cleaned s v -> v = to_valid s.
Proof.
  induction 1 as [|c s v C _ ->|b s v C _ ->]; [reflexivity|now rewrite character_step|].
  destruct (first_char b s) as [(c & t & C' & E)|(_ & R & H)]; [now destruct (C _ _ C' E)|].
  change (String b s) with (String b "" +s+ s). rewrite valid_step by (easy || exact R). cbn [val_rune]. fold (high b). now rewrite H.
Qed.
Lemma cleaned_iff s v : cleaned s v <-> v = to_valid s.
Proof. split; [apply cleaned_to_valid|intros ->; apply cleaned_valid]. Qed.
