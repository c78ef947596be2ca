From Verif Require Import GoStr GoStrFacts Utf8 DescribeProofs Json.

(** ** bytes *)
Definition all_ascii : list ascii := map ascii_of_nat (seq 0 256).
Lemma all_ascii_in c : In c all_ascii.
Proof.
  unfold all_ascii. apply in_map_iff. exists (nat_of_ascii c). split; [apply ascii_nat_embedding|].
  apply in_seq. pose proof (nat_ascii_bounded c). lia.
Qed.
Lemma for_all_ascii (p : ascii -> bool) : forallb p all_ascii = true -> forall c, p c = true.
Proof. intros H c. rewrite forallb_forall in H. apply H, all_ascii_in. Qed.

(** ** runes *)
Definition high (c : ascii) : bool := N.leb 128 (code c).
Lemma is_cont_high c : is_cont c = true -> high c = true.
Proof. unfold is_cont, byte_in, high, code. intros H. apply andb_true_iff in H. tauto. Qed.
Lemma byte_in_high lo hi c : (128 <= lo)%N -> byte_in lo hi c = true -> high c = true.
Proof. unfold byte_in, high, code. intros L H. apply andb_true_iff in H. destruct H as [H _]. apply N.leb_le in H. apply N.leb_le. lia. Qed.

(** the first rune of a non-empty string, with the rest *)
Definition whole_rune (r : string) : Prop := r <> "" /\ forall t, 2 <= String.length r -> rune_len (r +s+ t) = String.length r.
Lemma rune_len_cases s : s <> "" ->
  (exists a t, s = String a t /\ rune_len s = 1)
  \/ (exists r t, s = r +s+ t /\ rune_len s = String.length r /\ 2 <= String.length r
       /\ str_forall high r = true /\ forall t', rune_len (r +s+ t') = String.length r).
Proof.
  destruct s as [|a s1]; [contradiction|]. intros _.
  destruct (byte_in 194 223 a) eqn:E1.
  { destruct s1 as [|b s2].
    - left. exists a, "". split; [reflexivity|]. cbn [rune_len]. now rewrite E1.
    - destruct (is_cont b) eqn:E2.
      + right. exists (String a (String b "")), s2. cbn [String.append]. repeat split.
        * cbn [rune_len]. now rewrite E1, E2.
        * cbn; lia.
        * cbn [str_forall]. rewrite (byte_in_high 194 223 a), (is_cont_high b) by (auto; lia). reflexivity.
        * intros t'. cbn [String.append rune_len]. now rewrite E1, E2.
      + left. exists a, (String b s2). split; [reflexivity|]. cbn [rune_len]. now rewrite E1, E2. }
  destruct (byte_in 224 239 a) eqn:E3.
  { destruct s1 as [|b [|c s3]].
    - left. exists a, "". split; [reflexivity|]. cbn [rune_len]. now rewrite E1, E3.
    - left. exists a, (String b ""). split; [reflexivity|]. cbn [rune_len]. now rewrite E1, E3.
    - set (lo := if N.eqb (N_of_ascii a) 224 then 160%N else 128%N).
      set (hi := if N.eqb (N_of_ascii a) 237 then 159%N else 191%N).
      destruct (byte_in lo hi b && is_cont c) eqn:E2.
      + right. exists (String a (String b (String c ""))), s3. cbn [String.append]. repeat split.
        * cbn [rune_len]. rewrite E1, E3. fold lo hi. now rewrite E2.
        * cbn; lia.
        * apply andb_true_iff in E2. destruct E2 as [E2 E2'].
          cbn [str_forall]. rewrite (byte_in_high 224 239 a), (is_cont_high c), (byte_in_high lo hi b); auto; try lia.
          unfold lo; destruct (N.eqb _ _); lia.
        * intros t'. cbn [String.append rune_len]. rewrite E1, E3. fold lo hi. now rewrite E2.
      + left. exists a, (String b (String c s3)). split; [reflexivity|]. cbn [rune_len]. rewrite E1, E3. fold lo hi. now rewrite E2. }
  destruct (byte_in 240 244 a) eqn:E4.
  { destruct s1 as [|b [|c [|d s4]]].
    - left. exists a, "". split; [reflexivity|]. cbn [rune_len]. now rewrite E1, E3, E4.
    - left. exists a, (String b ""). split; [reflexivity|]. cbn [rune_len]. now rewrite E1, E3, E4.
    - left. exists a, (String b (String c "")). split; [reflexivity|]. cbn [rune_len]. now rewrite E1, E3, E4.
    - set (lo := if N.eqb (N_of_ascii a) 240 then 144%N else 128%N).
      set (hi := if N.eqb (N_of_ascii a) 244 then 143%N else 191%N).
      destruct (byte_in lo hi b && is_cont c && is_cont d) eqn:E2.
      + right. exists (String a (String b (String c (String d "")))), s4. cbn [String.append]. repeat split.
        * cbn [rune_len]. rewrite E1, E3, E4. fold lo hi. now rewrite E2.
        * cbn; lia.
        * apply andb_true_iff in E2. destruct E2 as [E2 E2'']. apply andb_true_iff in E2. destruct E2 as [E2 E2'].
          cbn [str_forall]. rewrite (byte_in_high 240 244 a), (is_cont_high c), (is_cont_high d), (byte_in_high lo hi b); auto; try lia.
          unfold lo; destruct (N.eqb _ _); lia.
        * intros t'. cbn [String.append rune_len]. rewrite E1, E3, E4. fold lo hi. now rewrite E2.
      + left. exists a, (String b (String c (String d s4))). split; [reflexivity|]. cbn [rune_len]. rewrite E1, E3, E4. fold lo hi. now rewrite E2. }
  left. exists a, s1. split; [reflexivity|]. cbn [rune_len]. now rewrite E1, E3, E4.
Qed.

(** what the elements of [runes_of] look like *)
Definition rune_shape (r : string) : Prop :=
  (exists a, r = String a "")
  \/ (2 <= String.length r /\ str_forall high r = true /\ forall t, rune_len (r +s+ t) = String.length r).
Lemma runes_fuel_shape f : forall s, Forall rune_shape (runes_fuel f s).
Proof.
  induction f as [|f IH]; intros s; cbn [runes_fuel]; [constructor|].
  destruct s as [|a s1]; [constructor|].
  destruct (rune_len_cases (String a s1)) as [(a' & t & E & L)|(r & t & E & L & Hl & Hh & Ht)]; [discriminate| |].
  - rewrite L. cbn [str_take str_skip]. constructor; [|apply IH]. left. now exists a.
  - rewrite L, E, str_take_app, str_skip_app. constructor; [|apply IH]. right. auto.
Qed.
Lemma runes_shape s : Forall rune_shape (runes_of s).
Proof. apply runes_fuel_shape. Qed.

Lemma ascii_rune_len c t : high c = false -> rune_len (String c t) = 1.
Proof.
  unfold high, code. intros H. apply N.leb_gt in H. cbn [rune_len].
  assert (B : forall lo hi, (128 <= lo)%N -> byte_in lo hi c = false).
  { intros lo hi L. unfold byte_in. destruct (N.leb lo (N_of_ascii c)) eqn:E; [apply N.leb_le in E; lia|reflexivity]. }
  rewrite !B by lia. reflexivity.
Qed.

Definition valid_rune (r : string) : Prop :=
  (exists a, r = String a "" /\ high a = false)
  \/ (2 <= String.length r /\ str_forall high r = true /\ forall t, rune_len (r +s+ t) = String.length r).
Lemma valid_rune_len r t : valid_rune r -> rune_len (r +s+ t) = String.length r.
Proof. intros [(a & -> & H)|(_ & _ & H)]; [now apply ascii_rune_len|apply H]. Qed.
Lemma val_rune_valid r : rune_shape r -> valid_rune (val_rune r).
Proof.
  intros [(a & ->)|(Hl & Hh & Ht)].
  - unfold val_rune. fold (high a). destruct (high a) eqn:E.
    + right. split; [cbn; lia|]. split; [reflexivity|]. reflexivity.
    + left. now exists a.
  - right. unfold val_rune. destruct r as [|a [|b r]]; cbn in Hl; try lia. auto.
Qed.

Lemma runes_fuel_concat vs : forall f, Forall valid_rune vs -> String.length (sconcat vs) <= f -> runes_fuel f (sconcat vs) = vs.
Proof.
  induction vs as [|v vs IH]; intros f Hv Hf.
  - destruct f; reflexivity.
  - inversion Hv as [|? ? Hv1 Hv2]; subst.
    assert (L : 1 <= String.length v). { destruct Hv1 as [(a & -> & _)|(H & _)]; cbn in *; lia. }
    cbn [sconcat fold_right] in *. fold (sconcat vs) in *. rewrite slen_app in Hf.
    destruct f as [|f]; [lia|]. cbn [runes_fuel].
    destruct (v +s+ sconcat vs) as [|c s] eqn:E.
    { apply sapp_nil_inv in E. destruct E as [-> _]. cbn in L. lia. }
    rewrite <- E. rewrite valid_rune_len by assumption. rewrite str_take_app, str_skip_app.
    f_equal. apply IH; [assumption|lia].
Qed.
Lemma runes_of_concat_valid vs : Forall valid_rune vs -> runes_of (sconcat vs) = vs.
Proof. intros H. apply runes_fuel_concat; auto. Qed.

Lemma val_rune_idem r : rune_shape r -> val_rune (val_rune r) = val_rune r.
Proof.
  intros H. pose proof (val_rune_valid r H) as [(a & E & Ha)|(Hl & _)].
  - rewrite E. unfold val_rune. fold (high a). now rewrite Ha.
  - destruct (val_rune r) as [|x [|y z]]; cbn in Hl; try lia. reflexivity.
Qed.
Lemma to_valid_idem s : to_valid (to_valid s) = to_valid s.
Proof.
  unfold to_valid at 1. unfold to_valid at 1. pose proof (runes_shape s) as H.
  rewrite runes_of_concat_valid.
  - rewrite map_map. unfold to_valid. f_equal. apply map_ext_in. intros r Hr. apply val_rune_idem.
    now apply (proj1 (Forall_forall _ _) H).
  - apply Forall_forall. intros v Hv. apply in_map_iff in Hv. destruct Hv as (r & <- & Hr).
    apply val_rune_valid. now apply (proj1 (Forall_forall _ _) H).
Qed.

(** plain ASCII text is valid *)
Definition ascii_only (s : string) : bool := str_forall (fun c => negb (high c)) s.
Lemma ascii_runes s : ascii_only s = true -> forall f, String.length s <= f ->
  map val_rune (runes_fuel f s) = runes_fuel f s /\ sconcat (runes_fuel f s) = s.
Proof.
  induction s as [|c s IH]; intros H f Hf.
  - destruct f; now split.
  - cbn in H. apply andb_true_iff in H. destruct H as [Hc Hs]. apply negb_true_iff in Hc.
    destruct f as [|f]; [cbn in Hf; lia|]. cbn [runes_fuel]. rewrite ascii_rune_len by assumption.
    cbn [str_take str_skip map sconcat fold_right]. cbn in Hf.
    destruct (IH Hs f ltac:(lia)) as [I1 I2]. rewrite I1. fold (sconcat (runes_fuel f s)). rewrite I2.
    unfold val_rune. fold (high c). rewrite Hc. split; reflexivity.
Qed.
Lemma to_valid_ascii s : ascii_only s = true -> to_valid s = s.
Proof. intros H. unfold to_valid, runes_of. destruct (ascii_runes s H _ (le_n _)) as [-> ->]. reflexivity. Qed.

(** ** string literals *)
Lemma prepend_app a b r : prepend (a +s+ b) r = prepend a (prepend b r).
Proof. destruct r as [[v rest]|]; cbn; [|reflexivity]. now rewrite sapp_assoc. Qed.
Lemma unescape_byte c r : unescape (enc_byte c +s+ r) = prepend (val_rune (String c "")) (unescape r).
Proof. destruct c as [[] [] [] [] [] [] [] []]; reflexivity. Qed.
Lemma unescape_high c r : high c = true -> unescape (String c r) = prepend (String c "") (unescape r).
Proof. destruct c as [[] [] [] [] [] [] [] []]; intros H; try discriminate H; reflexivity. Qed.
Lemma unescape_highs s r : str_forall high s = true -> unescape (s +s+ r) = prepend s (unescape r).
Proof.
  induction s as [|c s IH]; intros H.
  - cbn. destruct (unescape r) as [[? ?]|]; reflexivity.
  - cbn in H. apply andb_true_iff in H. destruct H as [Hc Hs]. cbn [String.append].
    rewrite unescape_high by assumption. rewrite IH by assumption.
    change (String c s) with (String c "" +s+ s). now rewrite prepend_app.
Qed.
Lemma unescape_rune r rest : rune_shape r -> unescape (enc_rune r +s+ rest) = prepend (val_rune r) (unescape rest).
Proof.
  intros [(a & ->)|(Hl & Hh & _)]; [apply unescape_byte|].
  unfold enc_rune. destruct r as [|a [|b r]]; cbn in Hl; try lia.
  destruct (seqb_spec (String a (String b r)) (String "226" (String "128" (String "168" "")))) as [->|_]; [reflexivity|].
  destruct (seqb_spec (String a (String b r)) (String "226" (String "128" (String "169" "")))) as [->|_]; [reflexivity|].
  change (val_rune (String a (String b r))) with (String a (String b r)). now apply unescape_highs.
Qed.
Lemma unescape_runes rs rest : Forall rune_shape rs ->
  unescape (sconcat (map enc_rune rs) +s+ String dq rest) = Some (sconcat (map val_rune rs), rest).
Proof.
  induction rs as [|r rs IH]; intros H; [reflexivity|].
  inversion H; subst. cbn [map sconcat fold_right].
  change (fold_right String.append "" ?x) with (sconcat x).
  rewrite sapp_assoc, unescape_rune by assumption. rewrite IH by assumption. reflexivity.
Qed.
(** decoding an encoded string gives the string with invalid UTF-8 replaced *)
Lemma unescape_enc s rest : unescape (sconcat (map enc_rune (runes_of s)) +s+ String dq rest) = Some (to_valid s, rest).
Proof. apply unescape_runes, runes_shape. Qed.

(** ** fuel *)
Lemma pfuel f :
  (forall s x, pval f s = Some x -> pval (S f) s = Some x)
  /\ (forall s x, parr f s = Some x -> parr (S f) s = Some x)
  /\ (forall s x, pmem f s = Some x -> pmem (S f) s = Some x).
Proof.
  induction f as [|f (IHv & IHa & IHm)].
  - repeat split; intros s x H; discriminate H.
  - split; [|split]; intros s x H.
    + remember (S f) as f1. cbn [pval]. rewrite Heqf1 in H. cbn [pval] in H.
      destruct (skip_ws s) as [|c s1]; [discriminate|].
      destruct (Ascii.eqb c dq); [exact H|].
      destruct (Ascii.eqb c "[").
      { assert (K : match parr f s1 with Some (l, r) => Some (JArr l, r) | None => None end = Some x ->
                    match parr f1 s1 with Some (l, r) => Some (JArr l, r) | None => None end = Some x).
        { destruct (parr f s1) as [[l r]|] eqn:E; [|discriminate]. rewrite (IHa _ _ E). auto. }
        destruct (skip_ws s1) as [|d r]; [auto|]. destruct d as [[] [] [] [] [] [] [] []]; auto. }
      destruct (Ascii.eqb c "{").
      { assert (K : match pmem f s1 with Some (l, r) => Some (JObj l, r) | None => None end = Some x ->
                    match pmem f1 s1 with Some (l, r) => Some (JObj l, r) | None => None end = Some x).
        { destruct (pmem f s1) as [[l r]|] eqn:E; [|discriminate]. rewrite (IHm _ _ E). auto. }
        destruct (skip_ws s1) as [|d r]; [auto|]. destruct d as [[] [] [] [] [] [] [] []]; auto. }
      exact H.
    + remember (S f) as f1. cbn [parr]. rewrite Heqf1 in H. cbn [parr] in H.
      destruct (pval f s) as [[v r]|] eqn:E; [|discriminate]. rewrite (IHv _ _ E).
      assert (K : forall r', match parr f r' with Some (l, r'') => Some (v :: l, r'') | None => None end = Some x ->
                  match parr f1 r' with Some (l, r'') => Some (v :: l, r'') | None => None end = Some x).
      { intros r'. destruct (parr f r') as [[l r'']|] eqn:E2; [|discriminate]. rewrite (IHa _ _ E2). auto. }
      destruct (skip_ws r) as [|d r']; [discriminate|]. destruct d as [[] [] [] [] [] [] [] []]; auto.
    + remember (S f) as f1. cbn [pmem]. rewrite Heqf1 in H. cbn [pmem] in H.
      destruct (skip_ws s) as [|c s1]; [discriminate|].
      destruct (negb (Ascii.eqb c dq)); [discriminate|].
      destruct (unescape s1) as [[k r]|]; [|discriminate].
      destruct (skip_ws r) as [|d r1]; [discriminate|].
      assert (K : match pval f r1 with None => None | Some (v, r2) =>
                      match skip_ws r2 with
                      | String "}"%char r3 => Some ([(to_valid k, v)], r3)
                      | String ","%char r3 =>
                          match pmem f r3 with Some (l, r4) => Some ((to_valid k, v) :: l, r4) | None => None end
                      | _ => None
                      end end = Some x ->
                  match pval f1 r1 with None => None | Some (v, r2) =>
                      match skip_ws r2 with
                      | String "}"%char r3 => Some ([(to_valid k, v)], r3)
                      | String ","%char r3 =>
                          match pmem f1 r3 with Some (l, r4) => Some ((to_valid k, v) :: l, r4) | None => None end
                      | _ => None
                      end end = Some x).
      { destruct (pval f r1) as [[v r2]|] eqn:E; [|discriminate]. rewrite (IHv _ _ E).
        assert (K2 : forall r3, match pmem f r3 with Some (l, r4) => Some ((to_valid k, v) :: l, r4) | None => None end = Some x ->
                   match pmem f1 r3 with Some (l, r4) => Some ((to_valid k, v) :: l, r4) | None => None end = Some x).
        { intros r3. destruct (pmem f r3) as [[l r4]|] eqn:E2; [|discriminate]. rewrite (IHm _ _ E2). auto. }
        destruct (skip_ws r2) as [|e r3]; [discriminate|]. destruct e as [[] [] [] [] [] [] [] []]; auto. }
      destruct d as [[] [] [] [] [] [] [] []]; auto.
Qed.
Lemma pval_mono f f' s x : f <= f' -> pval f s = Some x -> pval f' s = Some x.
Proof. induction 1; auto. intros H1. apply pfuel. auto. Qed.
Lemma parr_mono f f' s x : f <= f' -> parr f s = Some x -> parr f' s = Some x.
Proof. induction 1; auto. intros H1. apply pfuel. auto. Qed.
Lemma pmem_mono f f' s x : f <= f' -> pmem f s = Some x -> pmem f' s = Some x.
Proof. induction 1; auto. intros H1. apply pfuel. auto. Qed.

(** ** extending the input *)
Lemma skip_ws_ext s c r t : skip_ws s = String c r -> skip_ws (s +s+ t) = String c (r +s+ t).
Proof. induction s as [|d s IH]; cbn; [discriminate|]. destruct (is_ws d); [auto|]. intros H. injection H as -> ->. reflexivity. Qed.
Lemma strip_ext p s r t : strip_prefix p s = Some r -> strip_prefix p (s +s+ t) = Some (r +s+ t).
Proof. intros H. apply strip_prefix_some in H. subst s. rewrite sapp_assoc. apply strip_prefix_app. Qed.
Lemma strip_ext_none p s t : String.length p <= String.length s -> strip_prefix p s = None -> strip_prefix p (s +s+ t) = None.
Proof.
  revert s. induction p as [|c p IH]; intros s; cbn; [discriminate|].
  destruct s as [|d s]; cbn; [lia|]. destruct (Ascii.eqb c d); auto. intros H. apply IH. lia.
Qed.
Lemma prepend_some p r v rest : prepend p r = Some (v, rest) -> exists v', r = Some (v', rest) /\ v = p +s+ v'.
Proof. destruct r as [[v' rest']|]; cbn; [|discriminate]. intros H. injection H as <- <-. eauto. Qed.

Lemma unescape_ext n : forall s v r t, String.length s <= n -> unescape s = Some (v, r) -> unescape (s +s+ t) = Some (v, r +s+ t).
Proof.
  induction n as [|n IH]; intros s v r t Hn H.
  { destruct s; [discriminate H|cbn in Hn; lia]. }
  destruct s as [|c s1]; [discriminate|]. cbn [String.append unescape] in *. cbn in Hn.
  destruct (Ascii.eqb c dq); [injection H as <- <-; reflexivity|].
  assert (P : forall p s', String.length s' <= n -> prepend p (unescape s') = Some (v, r) ->
              prepend p (unescape (s' +s+ t)) = Some (v, r +s+ t)).
  { intros p s' Hs' Hp. apply prepend_some in Hp. destruct Hp as (v' & E & ->).
    rewrite (IH _ _ _ t Hs' E). reflexivity. }
  destruct (Ascii.eqb c bs) eqn:Ebs.
  - destruct s1 as [|e s2]; [discriminate|]. cbn [String.append]. cbn in Hn.
    destruct (Ascii.eqb e "u") eqn:Eu.
    + destruct s2 as [|x1 [|x2 [|x3 [|x4 s3]]]]; try discriminate H. cbn [String.append]. cbn in Hn.
      destruct (hex4 x1 x2 x3 x4) as [h|] eqn:Eh; [|discriminate].
      destruct (is_high h).
      * destruct s3 as [|k1 [|k2 s3']].
        -- discriminate H.
        -- cbn [String.append]. cbn [unescape] in H.
           destruct (Ascii.eqb k1 dq) eqn:Ek; [|destruct (Ascii.eqb k1 bs); [discriminate|destruct (N.ltb (code k1) 32); discriminate]].
           apply Ascii.eqb_eq in Ek. subst k1.
           assert (Hgoal : prepend replacement (unescape (String dq "" +s+ t)) = Some (v, r +s+ t)).
           { cbn in H. injection H as <- <-. reflexivity. }
           cbn [String.append] in Hgoal.
           destruct t as [|a [|b [|c1 [|d1 [|e1 t']]]]]; exact Hgoal.
        -- destruct (Ascii.eqb k1 bs && Ascii.eqb k2 "u") eqn:Ek.
           ++ apply andb_true_iff in Ek. destruct Ek as [Ek1 Ek2]. apply Ascii.eqb_eq in Ek1, Ek2. subst k1 k2.
              destruct s3' as [|y1 [|y2 [|y3 [|y4 s4]]]]; try discriminate H.
              cbn [String.append]. rewrite !Ascii.eqb_refl in *. cbn [andb] in *.
              destruct (hex4 y1 y2 y3 y4) as [m|] eqn:Em.
              ** destruct (is_low m).
                 --- apply P; [cbn in Hn; lia|exact H].
                 --- change (String bs (String "u" (String y1 (String y2 (String y3 (String y4 (s4 +s+ t)))))))
                       with (String bs (String "u" (String y1 (String y2 (String y3 (String y4 s4))))) +s+ t).
                     apply P; [cbn in *; lia|exact H].
              ** change (String bs (String "u" (String y1 (String y2 (String y3 (String y4 (s4 +s+ t)))))))
                       with (String bs (String "u" (String y1 (String y2 (String y3 (String y4 s4))))) +s+ t).
                     apply P; [cbn in *; lia|exact H].
           ++ assert (H' : prepend replacement (unescape (String k1 (String k2 s3'))) = Some (v, r)).
              { destruct s3' as [|y1 [|y2 [|y3 [|y4 s4]]]]; exact H. }
              apply P in H'; [|cbn in *; lia]. cbn [String.append] in H' |- *. rewrite Ek.
              destruct (s3' +s+ t) as [|y1 [|y2 [|y3 [|y4 s4]]]]; exact H'.
      * destruct (is_low h); apply P; auto; lia.
    + destruct (simple_escape e); [|discriminate]. apply P; auto; lia.
  - destruct (N.ltb (code c) 32); [discriminate|]. apply P; auto; lia.
Qed.

Lemma span_num_ext s a b t : span_num s = (a, b) -> b <> "" -> span_num (s +s+ t) = (a, b +s+ t).
Proof.
  revert a b. induction s as [|c s IH]; intros a b; cbn; [congruence|].
  destruct (is_numch c).
  - destruct (span_num s) as [a' b'] eqn:E. intros H. injection H as <- <-. intros Hb. now rewrite (IH _ _ eq_refl Hb).
  - intros H. injection H as <- <-. reflexivity.
Qed.

Definition not_num (j : json) : Prop := match j with JNum _ => False | _ => True end.
Lemma skip_ws_nil_parr f s : skip_ws s = "" -> parr f s = None.
Proof. intros H. destruct f as [|[|f]]; cbn; [reflexivity|reflexivity|]. now rewrite H. Qed.
Lemma skip_ws_nil_pmem f s : skip_ws s = "" -> pmem f s = None.
Proof. intros H. destruct f as [|f]; cbn; [reflexivity|]. now rewrite H. Qed.

Lemma pext f :
  (forall s v r t, pval f s = Some (v, r) -> not_num v \/ r <> "" -> pval f (s +s+ t) = Some (v, r +s+ t))
  /\ (forall s l r t, parr f s = Some (l, r) -> parr f (s +s+ t) = Some (l, r +s+ t))
  /\ (forall s l r t, pmem f s = Some (l, r) -> pmem f (s +s+ t) = Some (l, r +s+ t)).
Proof.
  induction f as [|f (IHv & IHa & IHm)].
  { repeat split; intros; discriminate. }
  assert (U : forall s v r t, unescape s = Some (v, r) -> unescape (s +s+ t) = Some (v, r +s+ t)).
  { intros s v r t. exact (unescape_ext _ s v r t (le_n _)). }
  split; [|split].
  - intros s v r t H Hn. cbn [pval] in *.
    destruct (skip_ws s) as [|c s1] eqn:Es; [discriminate|]. rewrite (skip_ws_ext _ _ _ t Es).
    destruct (Ascii.eqb c dq).
    { destruct (unescape s1) as [[v' r']|] eqn:E; [|discriminate]. injection H as <- <-. now rewrite (U _ _ _ t E). }
    destruct (Ascii.eqb c "[").
    { assert (K : match parr f s1 with Some (l, r) => Some (JArr l, r) | None => None end = Some (v, r) ->
                  match parr f (s1 +s+ t) with Some (l, r) => Some (JArr l, r) | None => None end = Some (v, r +s+ t)).
      { destruct (parr f s1) as [[l r']|] eqn:E; [|discriminate]. rewrite (IHa _ _ _ t E). intros K. now injection K as <- <-. }
      destruct (skip_ws s1) as [|d r'] eqn:E1.
      { rewrite skip_ws_nil_parr in H by assumption. discriminate. }
      rewrite (skip_ws_ext _ _ _ t E1).
      destruct d as [[] [] [] [] [] [] [] []]; try exact (K H). injection H as <- <-. reflexivity. }
    destruct (Ascii.eqb c "{").
    { assert (K : match pmem f s1 with Some (l, r) => Some (JObj l, r) | None => None end = Some (v, r) ->
                  match pmem f (s1 +s+ t) with Some (l, r) => Some (JObj l, r) | None => None end = Some (v, r +s+ t)).
      { destruct (pmem f s1) as [[l r']|] eqn:E; [|discriminate]. rewrite (IHm _ _ _ t E). intros K. now injection K as <- <-. }
      destruct (skip_ws s1) as [|d r'] eqn:E1.
      { rewrite skip_ws_nil_pmem in H by assumption. discriminate. }
      rewrite (skip_ws_ext _ _ _ t E1).
      destruct d as [[] [] [] [] [] [] [] []]; try exact (K H). injection H as <- <-. reflexivity. }
    destruct (is_digit c || Ascii.eqb c "-").
    { destruct (span_num (String c s1)) as [n r'] eqn:E.
      destruct (valid_num n) eqn:Ev; [|discriminate]. injection H as <- <-.
      destruct Hn as [[]|Hn].
      apply (span_num_ext _ _ _ t) in E; [|exact Hn]. cbn [String.append] in E. rewrite E. now rewrite Ev. }
    change (String c (s1 +s+ t)) with (String c s1 +s+ t).
    destruct (strip_prefix "null" (String c s1)) as [r1|] eqn:E1.
    { injection H as <- <-. now rewrite (strip_ext _ _ _ t E1). }
    destruct (strip_prefix "true" (String c s1)) as [r1'|] eqn:E2.
    { injection H as <- <-. apply strip_prefix_some in E2. injection E2 as -> ->. reflexivity. }
    destruct (strip_prefix "false" (String c s1)) as [r1''|] eqn:E3; [|discriminate].
    injection H as <- <-. apply strip_prefix_some in E3. injection E3 as -> ->. reflexivity.
  - intros s l r t H. cbn [parr] in *.
    destruct (pval f s) as [[v r1]|] eqn:E; [|discriminate].
    destruct (skip_ws r1) as [|d r2] eqn:E1; [discriminate|].
    assert (Hr : r1 <> "") by (intros ->; discriminate E1).
    rewrite (IHv _ _ _ t E (or_intror Hr)). rewrite (skip_ws_ext _ _ _ t E1).
    assert (K : match parr f r2 with Some (l, r'') => Some (v :: l, r'') | None => None end = Some (l, r) ->
                match parr f (r2 +s+ t) with Some (l, r'') => Some (v :: l, r'') | None => None end = Some (l, r +s+ t)).
    { destruct (parr f r2) as [[l2 r3]|] eqn:E2; [|discriminate]. rewrite (IHa _ _ _ t E2). intros K. now injection K as <- <-. }
    destruct d as [[] [] [] [] [] [] [] []]; try discriminate H; try exact (K H). injection H as <- <-. reflexivity.
  - intros s l r t H. cbn [pmem] in *.
    destruct (skip_ws s) as [|c s1] eqn:Es; [discriminate|]. rewrite (skip_ws_ext _ _ _ t Es).
    destruct (negb (Ascii.eqb c dq)); [discriminate|].
    destruct (unescape s1) as [[k r0]|] eqn:Eu; [|discriminate]. rewrite (U _ _ _ t Eu).
    destruct (skip_ws r0) as [|d r1] eqn:E0; [discriminate|]. rewrite (skip_ws_ext _ _ _ t E0).
    assert (Hd : d = ":"%char) by (destruct d as [[] [] [] [] [] [] [] []]; try discriminate H; reflexivity).
    subst d.
    destruct (pval f r1) as [[v r2]|] eqn:E; [|discriminate].
    destruct (skip_ws r2) as [|d r3] eqn:E1; [discriminate|].
    assert (Hr : r2 <> "") by (intros ->; discriminate E1).
    rewrite (IHv _ _ _ t E (or_intror Hr)). rewrite (skip_ws_ext _ _ _ t E1).
    assert (K : match pmem f r3 with Some (l, r'') => Some ((to_valid k, v) :: l, r'') | None => None end = Some (l, r) ->
                match pmem f (r3 +s+ t) with Some (l, r'') => Some ((to_valid k, v) :: l, r'') | None => None end = Some (l, r +s+ t)).
    { destruct (pmem f r3) as [[l2 r4]|] eqn:E2; [|discriminate]. rewrite (IHm _ _ _ t E2). intros K. now injection K as <- <-. }
    destruct d as [[] [] [] [] [] [] [] []]; try discriminate H; try exact (K H). injection H as <- <-. reflexivity.
Qed.
