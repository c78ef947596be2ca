(** The parser of Json.v accepts the grammar of JsonSpec.v. *)
From Verif Require Import GoStr GoStrFacts Utf8 Json JsonFacts JsonRound JsonSpec JsonUtf8 JsonChars.

(** ** blanks *)
Lemma ws_iff c : is_ws c = true <-> c = " "%char \/ c = "009"%char \/ c = "010"%char \/ c = "013"%char.
Proof.
  split; [|intros [->|[->|[->| ->]]]; reflexivity]. unfold is_ws, code. rewrite !orb_true_iff, !N.eqb_eq. intros H.
  rewrite <- (ascii_N_embedding c). destruct H as [[[-> | ->]| ->]| ->]; auto.
Qed.
Lemma skip_split s : exists w, blank w /\ s = w +s+ skip_ws s.
Proof.
  induction s as [|c s (w & B & E)]; [exists ""; split; [constructor|reflexivity]|]. cbn [skip_ws]. destruct (is_ws c) eqn:W.
  - exists (String c w). split; [constructor; [now apply ws_iff|exact B]|]. cbn [String.append]. now rewrite <- E.
  - exists "". split; [constructor|reflexivity].
Qed.
Lemma skip_blank w s : blank w -> skip_ws (w +s+ s) = skip_ws s.
Proof. induction 1 as [|c w C _ IH]; [reflexivity|]. cbn [String.append skip_ws]. apply ws_iff in C. now rewrite C. Qed.
Lemma skip_nil s : skip_ws s = "" <-> blank s.
Proof.
  split; intros H.
  - destruct (skip_split s) as (w & B & E). rewrite H, sapp_nil_r in E. now subst.
  - rewrite <- (sapp_nil_r s), skip_blank by exact H. reflexivity.
Qed.
Lemma blank_num w s : blank w -> no_numch s -> no_numch (w +s+ s).
Proof. intros [|c w' C _] H; [exact H|]. cbn. destruct C as [->|[->|[->| ->]]]; reflexivity. Qed.

(** ** one value *)
Scheme value_min := Minimality for value Sort Prop with elements_min := Minimality for elements Sort Prop with members_min := Minimality for members Sort Prop.
Combined Scheme grammar_ind from value_min, elements_min, members_min.

Definition value_head (c : ascii) : Prop := is_ws c = false /\ c <> "]"%char /\ c <> "}"%char.
Lemma digit_or_minus c : (is_digit c || Ascii.eqb c "-") = true -> value_head c /\ c <> dq /\ c <> "["%char /\ c <> "{"%char.
Proof.
  intros H. assert (K : forall d, (is_digit d || Ascii.eqb d "-") = false -> c <> d) by (intros d D ->; congruence).
  split; [split; [|split; apply K; reflexivity]|repeat split; apply K; reflexivity].
  destruct (is_ws c) eqn:W; [|reflexivity]. apply ws_iff in W. destruct W as [->|[->|[->| ->]]]; discriminate H.
Qed.
Lemma value_start t v : value t v -> exists c s, t = String c s /\ value_head c.
Proof.
  intros H. destruct H as [| | |n N|s v L|w B|s l E|w B|s l M].
  4:{ destruct (number_chars _ N) as (_ & c & t & -> & D). exists c, t. split; [reflexivity|]. now apply digit_or_minus. }
  4:{ destruct L as [s v w C W]. eexists _, _. split; [reflexivity|]. repeat split; discriminate. }
  all: eexists _, _; (split; [reflexivity|]); repeat split; discriminate.
Qed.
Lemma skip_value w t v r : blank w -> value t v -> skip_ws (w +s+ t +s+ r) = t +s+ r.
Proof.
  intros B V. rewrite skip_blank by exact B. destruct (value_start _ _ V) as (c & s & -> & H & _). cbn [String.append skip_ws]. now rewrite H.
Qed.
Lemma close_bracket s (A : Type) (x : string -> A) (y : A) : match s with String "]"%char r => x r | _ => y end = match s with String c r => if Ascii.eqb c "]" then x r else y | _ => y end.
Proof. destruct s as [|[[] [] [] [] [] [] [] []] s]; reflexivity. Qed.
Lemma close_brace s (A : Type) (x : string -> A) (y : A) : match s with String "}"%char r => x r | _ => y end = match s with String c r => if Ascii.eqb c "}" then x r else y | _ => y end.
Proof. destruct s as [|[[] [] [] [] [] [] [] []] s]; reflexivity. Qed.
Lemma next_element s (A : Type) (x y : string -> A) (z : A) :
  match s with String "]"%char r => x r | String ","%char r => y r | _ => z end = match s with String c r => if Ascii.eqb c "]" then x r else if Ascii.eqb c "," then y r else z | _ => z end.
Proof. destruct s as [|[[] [] [] [] [] [] [] []] s]; reflexivity. Qed.
Lemma next_member s (A : Type) (x y : string -> A) (z : A) :
  match s with String "}"%char r => x r | String ","%char r => y r | _ => z end = match s with String c r => if Ascii.eqb c "}" then x r else if Ascii.eqb c "," then y r else z | _ => z end.
Proof. destruct s as [|[[] [] [] [] [] [] [] []] s]; reflexivity. Qed.
Lemma colon s (A : Type) (x : string -> A) (y : A) : match s with String ":"%char r => x r | _ => y end = match s with String c r => if Ascii.eqb c ":" then x r else y | _ => y end.
Proof. destruct s as [|[[] [] [] [] [] [] [] []] s]; reflexivity. Qed.

(** ** what is accepted is in the grammar *)
Lemma sapp_cons c (a b : string) : String c a +s+ b = String c (a +s+ b).
Proof. reflexivity. Qed.
Lemma span_split s a b : span_num s = (a, b) -> s = a +s+ b.
Proof.
  revert a b. induction s as [|c s IH]; intros a b H; cbn [span_num] in H; [now injection H as <- <-|].
  destruct (is_numch c); [|now injection H as <- <-]. destruct (span_num s) as [a' b'] eqn:E. injection H as <- <-. now rewrite (IH _ _ eq_refl).
Qed.
Lemma strip_split p s r : strip_prefix p s = Some r -> s = p +s+ r.
Proof. revert s. induction p as [|c p IH]; intros s H; [now injection H as <-|]. destruct s as [|d s]; [discriminate H|]. cbn [strip_prefix] in H.
  destruct (Ascii.eqb_spec c d) as [->|]; [|discriminate H]. cbn [String.append]. f_equal. now apply IH.
Qed.
Lemma sound f :
  (forall s v r, pval f s = Some (v, r) -> exists w t, blank w /\ s = w +s+ t +s+ r /\ value t v)
  /\ (forall s l r, parr f s = Some (l, r) -> exists t, s = t +s+ String "]" r /\ elements t l)
  /\ (forall s l r, pmem f s = Some (l, r) -> exists t, s = t +s+ String "}" r /\ members t l).
Proof.
  induction f as [|f (IHv & IHa & IHm)]; [repeat split; intros; discriminate|]. split; [|split].
  - intros s v r H. destruct (skip_split s) as (w & W & E). exists w. rewrite E. cbn [pval] in H. clear E.
    enough (exists t, skip_ws s = t +s+ r /\ value t v) as (t & -> & V) by (exists t; auto).
    destruct (skip_ws s) as [|c s1]; [discriminate|]. clear w W s.
    destruct (Ascii.eqb_spec c dq) as [->|_].
    { destruct (unescape s1) as [[v' r']|] eqn:U; [|discriminate]. injection H as <- <-.
      apply parse_literal in U as (l & -> & L). exists l. split; [reflexivity|]. now constructor. }
    destruct (Ascii.eqb_spec c "[") as [->|_].
    { rewrite close_bracket in H.
      assert (K : match parr f s1 with Some (l, r) => Some (JArr l, r) | None => None end = Some (v, r) -> exists t, String "[" s1 = t +s+ r /\ value t v).
      { destruct (parr f s1) as [[l r']|] eqn:P; [|discriminate]. intros K. injection K as <- <-. apply IHa in P as (t & -> & T).
        exists (String "[" (t +s+ "]")). split; [cbn [String.append]; now rewrite sapp_assoc|]. now constructor. }
      destruct (skip_split s1) as (w & W & E). destruct (skip_ws s1) as [|d s2] eqn:S; [now apply K|].
      destruct (Ascii.eqb_spec d "]") as [->|_]; [|now apply K]. injection H as <- <-. exists (String "[" (w +s+ "]")).
      split; [rewrite E; cbn [String.append]; now rewrite sapp_assoc|]. now constructor. }
    destruct (Ascii.eqb_spec c "{") as [->|_].
    { rewrite close_brace in H.
      assert (K : match pmem f s1 with Some (l, r) => Some (JObj l, r) | None => None end = Some (v, r) -> exists t, String "{" s1 = t +s+ r /\ value t v).
      { destruct (pmem f s1) as [[l r']|] eqn:P; [|discriminate]. intros K. injection K as <- <-. apply IHm in P as (t & -> & T).
        exists (String "{" (t +s+ "}")). split; [cbn [String.append]; now rewrite sapp_assoc|]. now constructor. }
      destruct (skip_split s1) as (w & W & E). destruct (skip_ws s1) as [|d s2] eqn:S; [now apply K|].
      destruct (Ascii.eqb_spec d "}") as [->|_]; [|now apply K]. injection H as <- <-. exists (String "{" (w +s+ "}")).
      split; [rewrite E; cbn [String.append]; now rewrite sapp_assoc|]. now constructor. }
    destruct (is_digit c || Ascii.eqb c "-").
    { destruct (span_num (String c s1)) as [n r'] eqn:N. destruct (valid_num n) eqn:V; [|discriminate]. injection H as <- <-.
      apply span_split in N. exists n. split; [exact N|]. constructor. now apply number_iff. }
    destruct (strip_prefix "null" _) as [x|] eqn:P1. { injection H as <- <-. apply strip_split in P1. exists "null". split; [exact P1|constructor]. }
    destruct (strip_prefix "true" _) as [x|] eqn:P2. { injection H as <- <-. apply strip_split in P2. exists "true". split; [exact P2|constructor]. }
    destruct (strip_prefix "false" _) as [x|] eqn:P3; [|discriminate]. injection H as <- <-. apply strip_split in P3. exists "false". split; [exact P3|constructor].
  - intros s l r H. cbn [parr] in H. destruct (pval f s) as [[v r1]|] eqn:V; [|discriminate]. apply IHv in V as (w & t & W & -> & V).
    rewrite next_element in H. destruct (skip_split r1) as (w' & W' & E). destruct (skip_ws r1) as [|c r2]; [discriminate|].
    destruct (Ascii.eqb_spec c "]") as [->|_].
    { injection H as <- <-. exists (w +s+ t +s+ w'). split; [rewrite E; now rewrite !sapp_assoc|]. now constructor. }
    destruct (Ascii.eqb_spec c ",") as [->|_]; [|discriminate]. destruct (parr f r2) as [[l' r3]|] eqn:P; [|discriminate]. injection H as <- <-.
    apply IHa in P as (t' & -> & T). exists (w +s+ t +s+ w' +s+ String "," t'). split; [rewrite E; now rewrite !sapp_assoc, sapp_cons|]. now constructor.
  - intros s l r H. cbn [pmem] in H. destruct (skip_split s) as (w & W & E). destruct (skip_ws s) as [|c s1]; [discriminate|].
    destruct (Ascii.eqb_spec c dq) as [->|_]; [|discriminate]. cbn [negb] in H. destruct (unescape s1) as [[k r1]|] eqn:U; [|discriminate].
    apply parse_literal in U as (lit & Q & L). rewrite E, Q. clear E Q s s1.
    rewrite colon in H. destruct (skip_split r1) as (w1 & W1 & E1). destruct (skip_ws r1) as [|c r2]; [discriminate|].
    destruct (Ascii.eqb_spec c ":") as [->|_]; [|discriminate]. rewrite E1. clear E1 r1.
    destruct (pval f r2) as [[v r3]|] eqn:V; [|discriminate]. apply IHv in V as (w2 & t & W2 & -> & V).
    rewrite next_member in H. destruct (skip_split r3) as (w' & W' & E). destruct (skip_ws r3) as [|c r4]; [discriminate|]. rewrite E. clear E r3.
    destruct (Ascii.eqb_spec c "}") as [->|_].
    { injection H as <- <-. exists (w +s+ lit +s+ w1 +s+ String ":" (w2 +s+ t +s+ w')). split; [now rewrite !sapp_assoc, sapp_cons, !sapp_assoc|]. now constructor. }
    destruct (Ascii.eqb_spec c ",") as [->|_]; [|discriminate]. destruct (pmem f r4) as [[l' r5]|] eqn:P; [|discriminate]. injection H as <- <-.
    apply IHm in P as (t' & -> & T). exists (w +s+ lit +s+ w1 +s+ String ":" (w2 +s+ t +s+ w' +s+ String "," t')).
    split; [now rewrite !sapp_assoc, sapp_cons, !sapp_assoc, sapp_cons|]. now constructor.
Qed.

(** ** what is in the grammar is accepted *)
Lemma elements_skip e l r : elements e l -> exists c s, skip_ws (e +s+ r) = String c s /\ c <> "]"%char.
Proof.
  intros [w s v w' W V W'|w s v w' t l' W V W' E]; rewrite !sapp_assoc, (skip_value _ _ _ _ W V); destruct (value_start _ _ V) as (c & s' & -> & _ & N & _); eexists _, _; (split; [reflexivity|exact N]).
Qed.
Lemma literal_head k key : literal k key -> exists s, k = String dq s.
Proof. intros [s v w _ _]. eauto. Qed.
Lemma skip_literal w k key r : blank w -> literal k key -> skip_ws (w +s+ k +s+ r) = k +s+ r.
Proof. intros W L. rewrite skip_blank by exact W. destruct (literal_head _ _ L) as (s & ->). reflexivity. Qed.
Lemma members_skip e l r : members e l -> exists s, skip_ws (e +s+ r) = String dq s.
Proof.
  intros [w k key w1 w2 s v w' W L _ _ _ _|w k key w1 w2 s v w' t l' W L _ _ _ _ _]; rewrite !sapp_assoc, (skip_literal _ _ _ _ W L); destruct (literal_head _ _ L) as (s' & ->); eexists; reflexivity.
Qed.
Lemma complete :
  (forall t v, value t v -> forall f w r, 2 * String.length t <= f -> blank w -> no_numch r -> pval f (w +s+ t +s+ r) = Some (v, r))
  /\ (forall t l, elements t l -> forall f r, 2 * String.length t < f -> parr f (t +s+ String "]" r) = Some (l, r))
  /\ (forall t l, members t l -> forall f r, 2 * String.length t < f -> pmem f (t +s+ String "}" r) = Some (l, r)).
Proof.
  apply grammar_ind.
  - intros f w r F B R. destruct f; [cbn in F; lia|]. cbn [pval]. rewrite skip_blank by exact B. reflexivity.
  - intros f w r F B R. destruct f; [cbn in F; lia|]. cbn [pval]. rewrite skip_blank by exact B. reflexivity.
  - intros f w r F B R. destruct f; [cbn in F; lia|]. cbn [pval]. rewrite skip_blank by exact B. reflexivity.
  - intros n N f w r F B R. destruct (number_chars _ N) as (C & c & t & -> & D). destruct f; [cbn in F; lia|]. cbn [pval].
    destruct (digit_or_minus _ D) as ((H & _) & H1 & H2 & H3). rewrite skip_blank by exact B. cbn [String.append]. rewrite skip_ws_head by exact H.
    apply Ascii.eqb_neq in H1, H2, H3. rewrite H1, H2, H3, D. rewrite <- sapp_cons, (span_num_good _ _ C R).
    apply number_iff in N. now rewrite N.
  - intros s v L f w r F B R. destruct (literal_parse _ _ L) as (s' & -> & P). destruct f; [cbn in F; lia|]. cbn [pval].
    rewrite skip_blank by exact B. cbn [String.append]. rewrite skip_ws_head by reflexivity. rewrite Ascii.eqb_refl.
    destruct (P r) as (u & -> & ->). reflexivity.
  - intros w' W' f w r F B R. destruct f; [cbn in F; lia|]. cbn [pval]. rewrite skip_blank by exact B. cbn [String.append]. rewrite skip_ws_head by reflexivity.
    replace (Ascii.eqb "[" dq) with false by reflexivity. rewrite Ascii.eqb_refl, sapp_assoc, skip_blank by exact W'. reflexivity.
  - intros e l E IH f w r F B R. destruct f; [cbn in F; lia|]. cbn [pval]. rewrite skip_blank by exact B. cbn [String.append]. rewrite skip_ws_head by reflexivity.
    replace (Ascii.eqb "[" dq) with false by reflexivity. rewrite Ascii.eqb_refl, sapp_assoc, close_bracket.
    destruct (elements_skip e l ("]" +s+ r) E) as (c & s & -> & N). apply Ascii.eqb_neq in N. rewrite N.
    cbn [String.append]. rewrite IH; [reflexivity|]. cbn [String.length] in F. rewrite slen_app in F. cbn in F. lia.
  - intros w' W' f w r F B R. destruct f; [cbn in F; lia|]. cbn [pval]. rewrite skip_blank by exact B. cbn [String.append]. rewrite skip_ws_head by reflexivity.
    replace (Ascii.eqb "{" dq) with false by reflexivity. replace (Ascii.eqb "{" "[") with false by reflexivity. rewrite Ascii.eqb_refl, sapp_assoc, skip_blank by exact W'. reflexivity.
  - intros e l E IH f w r F B R. destruct f; [cbn in F; lia|]. cbn [pval]. rewrite skip_blank by exact B. cbn [String.append]. rewrite skip_ws_head by reflexivity.
    replace (Ascii.eqb "{" dq) with false by reflexivity. replace (Ascii.eqb "{" "[") with false by reflexivity. rewrite Ascii.eqb_refl, sapp_assoc, close_brace.
    destruct (members_skip e l ("}" +s+ r) E) as (s & ->). replace (Ascii.eqb dq "}") with false by reflexivity.
    cbn [String.append]. rewrite IH; [reflexivity|]. cbn [String.length] in F. rewrite slen_app in F. cbn in F. lia.
  - intros w s v w' W V IH W' f r F. destruct f; [lia|]. cbn [parr]. rewrite !slen_app in F. rewrite !sapp_assoc, IH; [|lia|exact W|now apply blank_num].
    rewrite skip_blank by exact W'. reflexivity.
  - intros w s v w' t l W V IH W' E IHe f r F. destruct f; [lia|]. cbn [parr]. rewrite !slen_app in F. cbn [String.length] in F.
    rewrite !sapp_assoc, IH; [|lia|exact W|now apply blank_num]. rewrite skip_blank by exact W'. rewrite sapp_cons, skip_ws_head by reflexivity.
    rewrite IHe by lia. reflexivity.
  - intros w k key w1 w2 s v w' W L W1 W2 V IH W' f r F. destruct f; [lia|]. cbn [pmem]. rewrite !slen_app in F. cbn [String.length] in F. rewrite !slen_app in F.
    rewrite !sapp_assoc, (skip_literal _ _ _ _ W L). destruct (literal_parse _ _ L) as (k' & -> & P). cbn [String.append]. rewrite Ascii.eqb_refl. cbn [negb].
    destruct (P (w1 +s+ String ":" ((w2 +s+ s +s+ w') +s+ String "}" r))) as (u & -> & ->). rewrite skip_blank by exact W1. rewrite skip_ws_head by reflexivity.
    rewrite !sapp_assoc, IH; [|lia|exact W2|now apply blank_num]. rewrite skip_blank by exact W'. reflexivity.
  - intros w k key w1 w2 s v w' t l W L W1 W2 V IH W' M IHm f r F. destruct f; [lia|]. cbn [pmem]. rewrite !slen_app in F. cbn [String.length] in F. rewrite !slen_app in F. cbn [String.length] in F.
    rewrite !sapp_assoc, (skip_literal _ _ _ _ W L). destruct (literal_parse _ _ L) as (k' & -> & P). cbn [String.append]. rewrite Ascii.eqb_refl. cbn [negb].
    destruct (P (w1 +s+ String ":" ((w2 +s+ s +s+ w' +s+ String "," t) +s+ String "}" r))) as (u & -> & ->). rewrite skip_blank by exact W1. rewrite skip_ws_head by reflexivity.
    rewrite !sapp_assoc, IH; [|lia|exact W2|now apply blank_num]. rewrite skip_blank by exact W'. rewrite sapp_cons, skip_ws_head by reflexivity.
    rewrite IHm by lia. reflexivity.
Qed.

Theorem text_iff s v : Json.parse_text s = Some v <-> json_text s v.
Proof.
  unfold Json.parse_text. split.
  - destruct (pval _ s) as [[v' r]|] eqn:P; [|discriminate]. destruct (seqb_spec (skip_ws r) "") as [E|]; [|discriminate]. intros H. injection H as ->.
    apply sound in P as (w & t & W & -> & V). apply skip_nil in E. now constructor.
  - intros [w t w' v' W V W']. rewrite (proj1 complete _ _ V); [|rewrite !slen_app; lia|exact W|rewrite <- (sapp_nil_r w'); now apply blank_num].
    apply skip_nil in W'. now rewrite W'.
Qed.
Lemma depth_iff j : forall n, (depth j <= n)%N <-> JsonSpec.within n j.
Proof.
  induction j as [|b|x|s|l IH|l IH] using JsonRound.json_ind'; intros n; try (split; [constructor|cbn; lia]).
  - split.
    + intros D. cbn [depth] in D. destruct (N.eq_dec n 0) as [->|Z]; [lia|]. rewrite <- (N.succ_pred n Z) in *. constructor. apply depth_arr in D.
      rewrite Forall_forall in *. intros v I. now apply IH, D.
    + intros W. inversion W as [| | | |n' l' F|]; subst. cbn [depth]. apply depth_arr. rewrite Forall_forall in *. intros v I. now apply IH, F.
  - split.
    + intros D. cbn [depth] in D. destruct (N.eq_dec n 0) as [->|Z]; [lia|]. rewrite <- (N.succ_pred n Z) in *. constructor. apply depth_obj in D.
      rewrite Forall_forall in *. intros v I. now apply IH, D.
    + intros W. inversion W as [| | | | |n' l' F]; subst. cbn [depth]. apply depth_obj. rewrite Forall_forall in *. intros v I. now apply IH, F.
Qed.
Theorem parse_iff s v : Json.parse s = Some v <-> json_doc s v.
Proof.
  unfold Json.parse, json_doc. rewrite <- text_iff, <- depth_iff, <- N.leb_le. destruct (parse_text s) as [w|]; [|split; [discriminate|intros [H _]; discriminate]].
  split.
  - destruct (N.leb _ _) eqn:D; [|discriminate]. intros [= ->]. auto.
  - intros [[= ->] ->]. reflexivity.
Qed.
