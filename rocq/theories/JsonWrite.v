(** What Json.v prints is what JsonSpec.v says is written. *)
From Verif Require Import GoStr GoStrFacts Utf8 Json JsonFacts JsonRound JsonSpec JsonUtf8 JsonChars.

Lemma lower_hex_digit n c : lower_hex n c <-> (n < 16)%N /\ c = hex_digit n.
Proof.
  split.
  - intros H. assert (L : (n < 16)%N) by (apply get_bound in H; cbn in H; lia). split; [exact L|]. revert n L c H.
    apply (below16 (fun n => forall c, lower_hex n c -> c = hex_digit n)). repeat constructor; intros c H; vm_compute in H; injection H as <-; reflexivity.
  - intros [L ->]. revert n L. apply (below16 (fun n => lower_hex n (hex_digit n))). repeat constructor.
Qed.
(** written as \u00 and two digits *)
Definition by_code (c : ascii) : Prop :=
  c = "<"%char \/ c = ">"%char \/ c = "&"%char \/ (N_of_ascii c < 32)%N /\ ~ In (N_of_ascii c) [8; 9; 10; 12; 13]%N.
Lemma u00_special c : by_code c -> special (String c "") (u00 c).
Proof.
  intros H. pose proof (N_ascii_bounded c). unfold u00.
  apply (sp_u c (code c / 16) (code c mod 16)); [| | |exact H].
  - unfold byte, code. zify; euclid; lia.
  - apply lower_hex_digit. split; [|reflexivity]. unfold code. zify; euclid; lia.
  - apply lower_hex_digit. split; [|reflexivity]. unfold code. zify; euclid; lia.
Qed.
Lemma special_u00 c n m x y : byte (n * 16 + m) c -> lower_hex n x -> lower_hex m y -> "\u00" +s+ String x (String y "") = u00 c.
Proof.
  intros B X Y. apply lower_hex_digit in X as [X ->], Y as [Y ->]. unfold u00, code. rewrite B. cbn [String.append].
  repeat f_equal; zify; euclid; lia.
Qed.
Lemma by_code_enc c : by_code c -> enc_byte c = u00 c.
Proof.
  intros H.
  pose (q c := Ascii.eqb c "<" || Ascii.eqb c ">" || Ascii.eqb c "&" || N.ltb (N_of_ascii c) 32 && negb (existsb (N.eqb (N_of_ascii c)) [8; 9; 10; 12; 13]%N)).
  assert (Q : q c = true).
  { unfold q. rewrite !orb_true_iff, !Ascii.eqb_eq. destruct H as [->|[->|[->|[L N]]]]; auto.
    right. apply andb_true_iff. split; [now apply N.ltb_lt|]. apply negb_true_iff. destruct (existsb _ _) eqn:E; [|reflexivity].
    apply existsb_exists in E as (k & I & E). apply N.eqb_eq in E. subst k. contradiction. }
  pose (p c := negb (q c) || seqb (enc_byte c) (u00 c)).
  assert (P : p c = true) by (apply for_all_ascii; vm_compute; reflexivity).
  unfold p in P. rewrite Q in P. cbn in P. destruct (seqb_spec (enc_byte c) (u00 c)); congruence.
Qed.
Lemma special_enc c x : special c x -> enc_rune c = x /\ character c.
Proof.
  assert (A : forall a, high a = false -> character (String a "")) by (intros a H; apply valid_character; left; now exists a).
  intros H. destruct H as [| | | | | | |c n m x y B X Y H|c H|c H]; try (split; [reflexivity|now apply A]).
  - split; [cbn [enc_rune]; rewrite (by_code_enc _ H); symmetry; eapply special_u00; eauto|]. apply A.
    apply N.leb_gt. unfold code. destruct H as [->|[->|[->|[H _]]]]; [cbn; lia..|lia].
  - split; [|exists 0x2028%N; split; [unfold scalar, surrogate; lia|exact H]]. apply encodes_utf8 in H. subst c. reflexivity.
  - split; [|exists 0x2029%N; split; [unfold scalar, surrogate; lia|exact H]]. apply encodes_utf8 in H. subst c. reflexivity.
Qed.
Lemma rune_written c : character c -> special c (enc_rune c) \/ enc_rune c = c /\ forall x, ~ special c x.
Proof.
  intros C. pose proof (character_valid _ C) as V.
  assert (D : special c (enc_rune c) \/ enc_rune c = c).
  { destruct V as [(a & -> & H)|(L & _)].
    - cbn [enc_rune].
      assert (K : by_code a \/ (In a [dq; bs; "008"; "012"; "010"; "013"; "009"])%char \/ enc_byte a = String a "").
      { destruct (in_dec N.eq_dec (N_of_ascii a) [8; 9; 10; 12; 13]%N) as [I|I].
        - right. left. rewrite <- (ascii_N_embedding a). destruct I as [<-|[<-|[<-|[<-|[<-|[]]]]]]; cbn; auto 10.
        - destruct (N.ltb_spec (N_of_ascii a) 32) as [L|L]; [left; right; right; right; auto|].
          destruct (ascii_dec a "<") as [->|N1]; [left; left; reflexivity|]. destruct (ascii_dec a ">") as [->|N2]; [left; right; left; reflexivity|].
          destruct (ascii_dec a "&") as [->|N3]; [left; right; right; left; reflexivity|].
          destruct (ascii_dec a dq) as [->|N4]; [right; left; left; reflexivity|]. destruct (ascii_dec a bs) as [->|N5]; [right; left; right; left; reflexivity|].
          right. right. unfold enc_byte. fold (high a). rewrite H. apply Ascii.eqb_neq in N1, N2, N3, N4, N5. rewrite N1, N2, N3, N4, N5. cbn [orb].
          assert (G : forall k, (k < 32)%N -> N.eqb (code a) k = false) by (intros k Hk; apply N.eqb_neq; unfold code; lia).
          rewrite !G by lia. destruct (N.ltb_spec (code a) 32) as [L'|_]; [unfold code in L'; lia|]. reflexivity. }
      destruct K as [K|[K|K]]; [left; rewrite (by_code_enc _ K); now apply u00_special| |right; exact K].
      left. destruct K as [<-|[<-|[<-|[<-|[<-|[<-|[<-|[]]]]]]]]; constructor.
    - destruct c as [|a [|b r]]; [cbn in L; lia..|]. cbn [enc_rune].
      destruct (seqb_spec (String a (String b r)) (String "226" (String "128" (String "168" "")))) as [->|_]; [left; apply sp_2028, (utf8_encodes 0x2028); lia|].
      destruct (seqb_spec (String a (String b r)) (String "226" (String "128" (String "169" "")))) as [->|_]; [left; apply sp_2029, (utf8_encodes 0x2029); lia|].
      right. reflexivity. }
  destruct D as [D|D]; [left; exact D|]. right. split; [exact D|]. intros x S. pose proof (proj1 (special_enc _ _ S)) as E. rewrite D in E. subst x.
  inversion S; subst; try discriminate.
  - match goal with E : encodes _ _ |- _ => apply encodes_utf8 in E; discriminate E end.
  - match goal with E : encodes _ _ |- _ => apply encodes_utf8 in E; discriminate E end.
Qed.

Definition body (s : string) : string := sconcat (map enc_rune (runes_of s)).
Lemma body_step r t : r <> "" -> rune_len (r +s+ t) = String.length r -> body (r +s+ t) = enc_rune r +s+ body t.
Proof. intros R L. unfold body. now rewrite runes_step by auto. Qed.
Lemma character_nonempty c : character c -> c <> "".
Proof. intros C. pose proof (character_valid _ C) as [(? & -> & _)|(L & _)]; [discriminate|]. intros ->. cbn in L. lia. Qed.
Lemma body_char c t : character c -> body (c +s+ t) = enc_rune c +s+ body t.
Proof. intros C. apply body_step; [now apply character_nonempty|]. apply valid_rune_len. now apply character_valid. Qed.
Lemma body_byte b t : rune_len (String b t) = 1 -> high b = true -> body (String b t) = "\ufffd" +s+ body t.
Proof. intros R H. change (String b t) with (String b "" +s+ t). rewrite body_step by (easy || exact R). cbn [enc_rune]. unfold enc_byte. fold (high b). now rewrite H. Qed.
Lemma written_body s : written s (body s).
Proof.
  remember (String.length s) as n eqn:N. assert (L : String.length s <= n) by lia. clear N. revert s L.
  induction n as [|n IH]; intros s L.
  - destruct s; [constructor|cbn in L; lia].
  - destruct s as [|b s]; [constructor|]. destruct (first_char b s) as [(c & t & C & E)|(C & R & H)].
    + rewrite E. rewrite body_char by exact C.
      assert (W : written t (body t)).
      { apply IH. pose proof (character_nonempty _ C). destruct c as [|a c]; [contradiction|]. apply (f_equal String.length) in E. rewrite slen_app in E. cbn [String.length] in *. lia. }
      destruct (rune_written _ C) as [S|[-> S]]; [now apply wr_special|now apply wr_plain].
    + rewrite body_byte by assumption. apply wr_byte; [exact C|]. apply IH. cbn in L. lia.
Qed.
Lemma written_is s t : written s t -> t = body s.
Proof.
  induction 1 as [|c x s t S _ ->|c s t C N _ ->|b s t N _ ->].
  - reflexivity.
  - destruct (special_enc _ _ S) as [<- C]. now rewrite body_char.
  - rewrite body_char by exact C. destruct (rune_written _ C) as [S|[-> _]]; [destruct (N _ S)|reflexivity].
  - destruct (first_char b s) as [(c & t & C & E)|(_ & R & H)]; [destruct (N _ _ C E)|]. now rewrite body_byte.
Qed.
Lemma quoted_iff s t : quoted s t <-> t = enc_str s.
Proof. split; [intros [s' t' W]; apply written_is in W; subst; reflexivity|intros ->; apply qt, written_body]. Qed.

Scheme compact_min := Minimality for compact Sort Prop with items_min := Minimality for items Sort Prop with entries_min := Minimality for entries Sort Prop.
Combined Scheme compact_ind' from compact_min, items_min, entries_min.
Definition entry_text (kv : string * json) : string := enc_str (fst kv) +s+ ":" +s+ print (snd kv).
Lemma join_more x y l : join "," (x :: y :: l) = x +s+ String "," (join "," (y :: l)).
Proof. reflexivity. Qed.
Lemma compact_is :
  (forall j t, compact j t -> t = print j)
  /\ (forall l t, items l t -> t = join "," (map print l) /\ l <> [])
  /\ (forall l t, entries l t -> t = join "," (map entry_text l) /\ l <> []).
Proof.
  apply compact_ind'; try reflexivity.
  - intros s t Q. now apply quoted_iff.
  - intros l t _ [-> _]. reflexivity.
  - intros l t _ [-> _]. reflexivity.
  - intros v t _ ->. split; [reflexivity|discriminate].
  - intros v t l t' _ -> _ [-> N]. split; [|discriminate]. destruct l; [contradiction|reflexivity].
  - intros k q v t Q _ ->. apply quoted_iff in Q. subst q. split; [reflexivity|discriminate].
  - intros k q v t l t' Q _ -> _ [-> N]. apply quoted_iff in Q. subst q. split; [|discriminate]. destruct l as [|y l]; [contradiction|].
    cbn [map]. rewrite join_more. change (entry_text (k, v)) with (enc_str k +s+ ":" +s+ print v). now rewrite !sapp_assoc.
Qed.
Lemma compact_print j : compact j (print j).
Proof.
  induction j as [|b|n|s|l IH|l IH] using json_ind'.
  - constructor.
  - destruct b; constructor.
  - constructor.
  - constructor. now apply quoted_iff.
  - destruct l as [|v l]; [constructor|]. apply (cp_array (v :: l) (join "," (map print (v :: l)))). revert v IH. induction l as [|w l IHl]; intros v IH; inversion IH as [|? ? V F]; subst.
    + now constructor.
    + cbn [map]. rewrite join_more. apply it_more; [exact V|]. now apply IHl.
  - destruct l as [|v l]; [constructor|]. apply (cp_object (v :: l) (join "," (map entry_text (v :: l)))). revert v IH. induction l as [|w l IHl]; intros v IH; inversion IH as [|? ? V F]; subst; destruct v as [k v]; cbn [snd] in V.
    + apply et_last; [now apply quoted_iff|exact V].
    + cbn [map]. rewrite join_more. change (entry_text (k, v)) with (enc_str k +s+ ":" +s+ print v). rewrite !sapp_assoc. apply et_more; [now apply quoted_iff|exact V|]. now apply IHl.
Qed.
Theorem print_compact j t : print j = t <-> compact j t.
Proof. split; [intros <-; apply compact_print|]. intros H. symmetry. now apply compact_is. Qed.
