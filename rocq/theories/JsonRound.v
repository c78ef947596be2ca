(** json.Unmarshal inverts json.Marshal, and rejects every proper prefix of a
    marshalled object, array or string. *)
From Verif Require Import GoStr GoStrFacts Utf8 Json JsonFacts.

Section Ind.
Variable P : json -> Prop.
Hypothesis Hnull : P JNull.
Hypothesis Hbool : forall b, P (JBool b).
Hypothesis Hnum : forall n, P (JNum n).
Hypothesis Hstr : forall s, P (JStr s).
Hypothesis Harr : forall l, Forall P l -> P (JArr l).
Hypothesis Hobj : forall l, Forall (fun kv => P (snd kv)) l -> P (JObj l).
Fixpoint json_ind' (j : json) : P j :=
  match j with
  | JNull => Hnull
  | JBool b => Hbool b
  | JNum n => Hnum n
  | JStr s => Hstr s
  | JArr l => Harr l ((fix go l := match l return Forall P l with [] => Forall_nil _ | x :: l' => Forall_cons _ (json_ind' x) (go l') end) l)
  | JObj l => Hobj l ((fix go l := match l return Forall (fun kv => P (snd kv)) l with [] => Forall_nil _ | x :: l' => Forall_cons _ (json_ind' (snd x)) (go l') end) l)
  end.
End Ind.

(** number literals are as printed by Go, strings are valid UTF-8 *)
Definition good_num (n : string) : bool :=
  valid_num n && str_forall is_numch n
  && match n with String c _ => is_digit c || Ascii.eqb c "-" | _ => false end.
Fixpoint good (j : json) : bool :=
  match j with
  | JNull | JBool _ => true
  | JNum n => good_num n
  | JStr s => seqb (to_valid s) s
  | JArr l => forallb good l
  | JObj l => forallb (fun kv => seqb (to_valid (fst kv)) (fst kv) && good (snd kv)) l
  end.

(** numbers as printed by Go; any strings *)
Fixpoint nums_ok (j : json) : bool :=
  match j with
  | JNull | JBool _ | JStr _ => true
  | JNum n => good_num n
  | JArr l => forallb nums_ok l
  | JObj l => forallb (fun kv => nums_ok (snd kv)) l
  end.
(** the value with invalid UTF-8 replaced *)
Fixpoint norm (j : json) : json :=
  match j with
  | JStr s => JStr (to_valid s)
  | JArr l => JArr (map norm l)
  | JObj l => JObj (map (fun kv => (to_valid (fst kv), norm (snd kv))) l)
  | _ => j
  end.

Fixpoint need (j : json) : nat :=
  match j with
  | JArr l => S (fold_right (fun v n => S (Nat.max (need v) n)) 0 l)
  | JObj l => S (fold_right (fun kv n => S (Nat.max (need (snd kv)) n)) 0 l)
  | _ => 1
  end.

Definition no_numch (s : string) : Prop := match s with String c _ => is_numch c = false | _ => True end.
Lemma span_num_good n rest : str_forall is_numch n = true -> no_numch rest -> span_num (n +s+ rest) = (n, rest).
Proof.
  induction n as [|c n IH]; intros H Hr; cbn.
  - destruct rest as [|d r]; [reflexivity|]. cbn in Hr. cbn. now rewrite Hr.
  - cbn in H. apply andb_true_iff in H. destruct H as [Hc Hn]. rewrite Hc. now rewrite (IH Hn Hr).
Qed.

Lemma enc_str_app s r : enc_str s +s+ r = String dq (sconcat (map enc_rune (runes_of s)) +s+ String dq r).
Proof. unfold enc_str. cbn [String.append]. now rewrite sapp_assoc. Qed.

(** a number at the end must not run into what follows *)
Definition follows (j : json) (rest : string) : Prop := not_num j \/ no_numch rest.

Lemma join_cons sep x l : join sep (x :: l) = match l with [] => x | _ => x +s+ sep +s+ join sep l end.
Proof. destruct l; reflexivity. Qed.

Lemma print_head j rest : nums_ok j = true -> exists c s, print j +s+ rest = String c s /\ is_ws c = false
   /\ Ascii.eqb c "]" = false /\ Ascii.eqb c "}" = false.
Proof.
  destruct j as [|[]|n|s|l|l]; cbn [print]; intros H; try (eexists _, _; split; [reflexivity|now split]).
  cbn in H. unfold good_num in H. destruct n as [|c n]; [now rewrite andb_false_r in H|].
  exists c, (n +s+ rest). split; [reflexivity|]. apply andb_true_iff in H. destruct H as [_ H].
  destruct c as [[] [] [] [] [] [] [] []]; try discriminate H; now repeat split.
Qed.

Lemma skip_ws_head c s : is_ws c = false -> skip_ws (String c s) = String c s.
Proof. intros H. cbn. now rewrite H. Qed.

Lemma pval_print j : nums_ok j = true -> forall f rest, need j <= f -> follows j rest -> pval f (print j +s+ rest) = Some (norm j, rest).
Proof.
  induction j as [|b|n|s|l IH|l IH] using json_ind'; intros G f rest Hf Hr; (destruct f as [|f]; [cbn in Hf; lia|]).
  - reflexivity.
  - destruct b; reflexivity.
  - cbn in G. unfold good_num in G. destruct n as [|c n]; [now rewrite andb_false_r in G|].
    apply andb_true_iff in G. destruct G as [G G3]. apply andb_true_iff in G. destruct G as [G1 G2].
    destruct Hr as [[]|Hr].
    cbn [print]. pose proof (span_num_good (String c n) rest G2 Hr) as E. cbn [String.append] in E |- *.
    cbn [pval]. rewrite skip_ws_head by (destruct c as [[] [] [] [] [] [] [] []]; try discriminate G3; reflexivity).
    assert (Hq : Ascii.eqb c dq = false /\ Ascii.eqb c "[" = false /\ Ascii.eqb c "{" = false)
      by (destruct c as [[] [] [] [] [] [] [] []]; try discriminate G3; now repeat split).
    destruct Hq as (-> & -> & ->). rewrite G3, E, G1. reflexivity.
  - cbn [print]. rewrite enc_str_app. cbn [pval]. rewrite skip_ws_head by reflexivity.
    rewrite Ascii.eqb_refl. rewrite unescape_enc. cbn [norm]. now rewrite to_valid_idem.
  - cbn [print]. cbn [nums_ok] in G. cbn [need] in Hf. apply le_S_n in Hf.
    change (("[" +s+ join "," (map print l) +s+ "]") +s+ rest) with (String "[" ((join "," (map print l) +s+ "]") +s+ rest)).
    rewrite sapp_assoc. change ("]" +s+ rest) with (String "]" rest).
    cbn [pval]. rewrite skip_ws_head by reflexivity. cbn [Ascii.eqb]. 
    change (Ascii.eqb "[" dq) with false. change (Ascii.eqb "[" "[") with true. cbn iota.
    destruct l as [|j l]; [reflexivity|].
    assert (K : forall l f, l <> [] -> Forall (fun j => nums_ok j = true -> forall f rest, need j <= f -> follows j rest -> pval f (print j +s+ rest) = Some (norm j, rest)) l ->
              forallb nums_ok l = true -> fold_right (fun v n => S (Nat.max (need v) n)) 0 l <= f ->
              parr f (join "," (map print l) +s+ String "]" rest) = Some (map norm l, rest)).
    { clear. induction l as [|j l IHl]; intros f Hne F G Hf; [contradiction|]. inversion F as [|? ? F1 F2]; subst.
      cbn [forallb] in G. apply andb_true_iff in G. destruct G as [G1 G2]. cbn [fold_right] in Hf.
      destruct f as [|f]; [lia|]. cbn [map]. rewrite join_cons.
      destruct l as [|j2 l].
      - cbn [map]. cbn [parr]. rewrite (F1 G1) by (lia || (right; reflexivity)). reflexivity.
      - set (l' := j2 :: l) in *. cbn [map]. destruct (map print l') as [|x xs] eqn:E; [discriminate|].
        rewrite !sapp_assoc. cbn [parr]. rewrite (F1 G1) by (lia || (right; reflexivity)).
        change (skip_ws ("," +s+ ?x)) with (String "," x). cbn iota.
        rewrite IHl; auto; [discriminate|lia]. }
    specialize (K (j :: l) f ltac:(discriminate) IH G Hf).
    rewrite K.
    assert (HG : nums_ok j = true) by (cbn in G; apply andb_true_iff in G; tauto).
    assert (E : exists c s, skip_ws (join "," (map print (j :: l)) +s+ String "]" rest) = String c s /\ Ascii.eqb c "]" = false).
    { cbn [map]. rewrite join_cons.
      assert (E : exists t, match map print l with [] => print j | _ => print j +s+ "," +s+ join "," (map print l) end +s+ String "]" rest = print j +s+ t).
      { destruct (map print l); [eauto|rewrite sapp_assoc; eauto]. }
      destruct E as [t ->]. destruct (print_head j t HG) as (c & s & -> & W & B & _). exists c, s. now rewrite skip_ws_head. }
    destruct E as (c & s & -> & B). destruct c as [[] [] [] [] [] [] [] []]; try reflexivity. discriminate B.
  - cbn [print]. cbn [nums_ok] in G. cbn [need] in Hf. apply le_S_n in Hf.
    set (pm := fun kv : string * json => enc_str (fst kv) +s+ ":" +s+ print (snd kv)).
    change (("{" +s+ join "," (map pm l) +s+ "}") +s+ rest) with (String "{" ((join "," (map pm l) +s+ "}") +s+ rest)).
    rewrite sapp_assoc. change ("}" +s+ rest) with (String "}" rest).
    cbn [pval]. rewrite skip_ws_head by reflexivity.
    change (Ascii.eqb "{" dq) with false. change (Ascii.eqb "{" "[") with false. change (Ascii.eqb "{" "{") with true. cbn iota.
    destruct l as [|kv l]; [reflexivity|].
    assert (K : forall l f, l <> [] -> Forall (fun kv : string * json => nums_ok (snd kv) = true -> forall f rest, need (snd kv) <= f -> follows (snd kv) rest -> pval f (print (snd kv) +s+ rest) = Some (norm (snd kv), rest)) l ->
              forallb (fun kv => nums_ok (snd kv)) l = true ->
              fold_right (fun kv n => S (Nat.max (need (snd kv)) n)) 0 l <= f ->
              pmem f (join "," (map pm l) +s+ String "}" rest) = Some (map (fun kv => (to_valid (fst kv), norm (snd kv))) l, rest)).
    { clear. induction l as [|[k j] l IHl]; intros f Hne F G Hf; [contradiction|]. inversion F as [|? ? F1 F2]; subst.
      cbn [forallb fst snd] in *. apply andb_true_iff in G. destruct G as [G1 G2]. cbn [fold_right snd] in Hf.
      destruct f as [|f]; [lia|]. cbn [map]. rewrite join_cons.
      change (pm (k, j)) with (enc_str k +s+ ":" +s+ print j).
      destruct l as [|kv2 l].
      - cbn [map]. rewrite !sapp_assoc, enc_str_app. cbn [pmem]. rewrite skip_ws_head by reflexivity.
        change (negb (Ascii.eqb dq dq)) with false. cbn iota. rewrite unescape_enc.
        change (skip_ws (":" +s+ ?x)) with (String ":" x). cbn iota.
        rewrite (F1 G1) by (lia || (right; reflexivity)).
        change (skip_ws (String "}" rest)) with (String "}" rest). cbn iota. cbn [map fst snd]. now rewrite to_valid_idem.
      - set (l' := kv2 :: l) in *. destruct (map pm l') as [|x xs] eqn:E; [discriminate|].
        rewrite !sapp_assoc, enc_str_app. cbn [pmem]. rewrite skip_ws_head by reflexivity.
        change (negb (Ascii.eqb dq dq)) with false. cbn iota. rewrite unescape_enc.
        change (skip_ws (":" +s+ ?x)) with (String ":" x). cbn iota.
        rewrite (F1 G1) by (lia || (right; reflexivity)).
        change (skip_ws ("," +s+ ?x)) with (String "," x). cbn iota.
        rewrite IHl; auto; [|discriminate|lia]. cbn [map fst snd]. now rewrite to_valid_idem. }
    rewrite (K (kv :: l) f ltac:(discriminate) IH G Hf).
    assert (E : exists s, skip_ws (join "," (map pm (kv :: l)) +s+ String "}" rest) = String dq s).
    { cbn [map]. rewrite join_cons. change (pm kv) with (enc_str (fst kv) +s+ ":" +s+ print (snd kv)).
      destruct (map pm l); rewrite !sapp_assoc, enc_str_app; rewrite skip_ws_head by reflexivity; eauto. }
    destruct E as (s & ->). reflexivity.
Qed.

Lemma need_print j : nums_ok j = true -> need j <= 2 * String.length (print j).
Proof.
  induction j as [|b|n|s|l IH|l IH] using json_ind'; intros G.
  - cbn; lia.
  - destruct b; cbn; lia.
  - cbn in *. unfold good_num in G. destruct n; [now rewrite andb_false_r in G|cbn; lia].
  - cbn [need print]. unfold enc_str. cbn; lia.
  - assert (K : fold_right (fun v n => S (Nat.max (need v) n)) 0 l <= 2 * String.length (join "," (map print l)) + 1).
    { induction l as [|j l IHl]; cbn [fold_right map]; [lia|]. inversion IH as [|? ? H1 H2]; subst.
      cbn [nums_ok forallb] in G. apply andb_true_iff in G. destruct G as [G1 G2].
      specialize (IHl H2 G2). specialize (H1 G1). rewrite join_cons.
      destruct l as [|j2 l]; [cbn [map fold_right] in *; lia|].
      destruct (map print (j2 :: l)) eqn:E; [discriminate|]. rewrite <- E in *. rewrite !slen_app. cbn [String.length]. lia. }
    cbn [need print]. rewrite !slen_app. cbn [String.length]. lia.
  - set (pm := fun kv : string * json => enc_str (fst kv) +s+ ":" +s+ print (snd kv)).
    assert (K : fold_right (fun kv n => S (Nat.max (need (snd kv)) n)) 0 l <= 2 * String.length (join "," (map pm l)) + 1).
    { induction l as [|j l IHl]; cbn [fold_right map]; [lia|]. inversion IH as [|? ? H1 H2]; subst.
      cbn [nums_ok forallb] in G. apply andb_true_iff in G. destruct G as [G1 G2].
      specialize (IHl H2 G2). specialize (H1 G1). rewrite join_cons.
      assert (L : String.length (print (snd j)) <= String.length (pm j)) by (unfold pm; rewrite !slen_app; lia).
      destruct l as [|j2 l]; [cbn [map fold_right] in *; lia|].
      destruct (map pm (j2 :: l)) eqn:E; [discriminate|]. rewrite <- E in *. rewrite !slen_app. cbn [String.length]. lia. }
    cbn [need print]. fold pm. rewrite !slen_app. cbn [String.length]. lia.
Qed.

Lemma good_norm j : good j = true -> nums_ok j = true /\ norm j = j.
Proof.
  induction j as [|b|n|s|l IH|l IH] using json_ind'; intros G; cbn [good nums_ok norm] in *; auto.
  - apply seqb_eq in G. now rewrite G.
  - enough (K : forallb nums_ok l = true /\ map norm l = l) by (destruct K as [-> ->]; auto).
    induction IH as [|j l H IH K]; cbn in *; [auto|]. apply andb_true_iff in G as [G1 G2].
    destruct (H G1) as [-> ->]. destruct (K G2) as [-> ->]. auto.
  - enough (K : forallb (fun kv => nums_ok (snd kv)) l = true /\ map (fun kv => (to_valid (fst kv), norm (snd kv))) l = l)
      by (destruct K as [-> ->]; auto).
    induction IH as [|[k j] l H IH K]; cbn in *; [auto|]. apply andb_true_iff in G as [G1 G2]. apply andb_true_iff in G1 as [Gk G1].
    apply seqb_eq in Gk. destruct (H G1) as [-> ->]. destruct (K G2) as [-> ->]. now rewrite Gk.
Qed.
Theorem text_print_norm j : nums_ok j = true -> parse_text (print j) = Some (norm j).
Proof.
  intros G. unfold parse_text. pose proof (need_print j G).
  replace (print j) with (print j +s+ "") at 2 by apply sapp_nil_r.
  rewrite pval_print; [reflexivity|assumption|lia|right; exact I].
Qed.
Theorem text_print j : good j = true -> parse_text (print j) = Some j.
Proof. intros G. destruct (good_norm j G) as [H1 H2]. rewrite text_print_norm by assumption. now rewrite H2. Qed.
Lemma depth_arr n l : (N.succ (fold_right (fun v n => N.max (depth v) n) 0%N l) <= N.succ n)%N <-> Forall (fun v => (depth v <= n)%N) l.
Proof.
  rewrite <- N.succ_le_mono. induction l as [|v l IH]; cbn [fold_right]; [split; [constructor|lia]|]. rewrite N.max_lub_iff, IH. split; [intros []; now constructor|intros F; now inversion F].
Qed.
Lemma depth_obj n (l : list (string * json)) : (N.succ (fold_right (fun kv n => N.max (depth (snd kv)) n) 0%N l) <= N.succ n)%N <-> Forall (fun kv => (depth (snd kv) <= n)%N) l.
Proof.
  rewrite <- N.succ_le_mono. induction l as [|v l IH]; cbn [fold_right]; [split; [constructor|lia]|]. rewrite N.max_lub_iff, IH. split; [intros []; now constructor|intros F; now inversion F].
Qed.
Lemma depth_norm j : depth (norm j) = depth j.
Proof.
  induction j as [|b|n|s|l IH|l IH] using json_ind'; try reflexivity; cbn [norm depth]; f_equal; induction IH as [|x l H IH K]; cbn [map fold_right fst snd]; congruence.
Qed.
Theorem parse_print_norm j : nums_ok j = true -> (depth j <= 10000)%N -> parse (print j) = Some (norm j).
Proof. intros G D. unfold parse. rewrite text_print_norm by assumption. rewrite depth_norm. apply N.leb_le in D. now rewrite D. Qed.
Theorem parse_print j : good j = true -> (depth j <= 10000)%N -> parse (print j) = Some j.
Proof. intros G D. unfold parse. rewrite text_print by assumption. apply N.leb_le in D. now rewrite D. Qed.

Lemma skip_ws_app_nil a b : skip_ws a = "" -> skip_ws (a +s+ b) = skip_ws b.
Proof. induction a as [|c a IH]; cbn; [reflexivity|]. destruct (is_ws c); [auto|discriminate]. Qed.

(** no proper prefix of a marshalled object, array or string is valid JSON *)
Theorem text_prefix j p q : nums_ok j = true -> not_num j -> print j = p +s+ q -> q <> "" ->
  (forall v, parse_text p = Some v -> exists n, v = JNum n).
Proof.
  intros G N E Q v Hp. unfold parse_text in Hp.
  destruct (pval (2 * String.length p + 2) p) as [[v' r]|] eqn:Ep; [|discriminate].
  destruct (seqb (skip_ws r) "") eqn:Er; [|discriminate]. apply seqb_eq in Er. injection Hp as ->.
  destruct v as [|b|n|s|l|l]; try (now eexists); exfalso.
  all: pose proof (proj1 (pext _) _ _ _ q Ep (or_introl I)) as H1.
  all: set (f1 := 2 * String.length p + 2) in *; set (f := Nat.max f1 (need j)).
  all: apply (pval_mono f1 f) in H1; [|lia].
  all: pose proof (pval_print j G f "" ltac:(lia) (or_intror I)) as H2.
  all: rewrite sapp_nil_r, E, H1 in H2; injection H2 as _ H2; apply sapp_nil_inv in H2; destruct H2 as [_ H2]; contradiction.
Qed.
(** ... in particular of an object: its prefixes start with a brace *)
Theorem text_prefix_obj l p q : nums_ok (JObj l) = true -> print (JObj l) = p +s+ q -> q <> "" -> parse_text p = None.
Proof.
  intros G E Q. destruct (parse_text p) as [v|] eqn:Hp; [|reflexivity]. exfalso.
  destruct (text_prefix (JObj l) p q G I E Q v Hp) as [n ->].
  unfold parse_text in Hp. destruct p as [|c p]; [discriminate|]. cbn [print String.append] in E. injection E as <- _.
  destruct (2 * String.length (String "{" p) + 2); [discriminate|]. cbn [pval] in Hp. rewrite skip_ws_head in Hp by reflexivity.
  change (Ascii.eqb "{" dq) with false in Hp. change (Ascii.eqb "{" "[") with false in Hp. change (Ascii.eqb "{" "{") with true in Hp. cbn iota in Hp.
  assert (K : match pmem n0 p with Some (l0, r) => Some (JObj l0, r) | None => None end = Some (JNum n, skip_ws "") -> False)
    by (destruct (pmem n0 p) as [[? ?]|]; discriminate).
  assert (K2 : forall r o, match (match o with Some (l0, r) => Some (JObj l0, r) | None => None end) with
                 Some (v, r0) => if seqb (skip_ws r0) "" then Some v else None | None => None end = Some (JNum n) -> r = "" -> False).
  { intros r o. destruct o as [[? ?]|]; [|discriminate]. destruct (seqb _ _); discriminate. }
  destruct (skip_ws p) as [|d r]; [exact (K2 "" _ Hp eq_refl)|].
  destruct d as [[] [] [] [] [] [] [] []]; try exact (K2 "" _ Hp eq_refl).
  destruct (seqb (skip_ws r) ""); discriminate.
Qed.
Lemma parse_some s v : parse s = Some v -> parse_text s = Some v.
Proof. unfold parse. destruct (parse_text s) as [w|]; [|discriminate]. destruct (N.leb _ _); [auto|discriminate]. Qed.
Lemma parse_prefix_obj l p q : nums_ok (JObj l) = true -> print (JObj l) = p +s+ q -> q <> "" -> parse p = None.
Proof. intros G E Q. destruct (parse p) as [v|] eqn:H; [|reflexivity]. apply parse_some in H. pose proof (text_prefix_obj l p q G E Q). congruence. Qed.
