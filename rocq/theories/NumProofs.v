(** Number literals as read by JsonDec.v, LockIO.v and ZipDB.v. *)
From Verif Require Import GoStr GoStrFacts Json JsonDec JsonSpec NumSpec JsonChars LockIO.
Local Open Scope Z_scope.

Lemma digits_val_acc s : forall a, digits_val a s = a * 10 ^ Z.of_nat (String.length s) + digits_val 0 s.
Proof.
  induction s as [|c s IH]; intros a; cbn [digits_val String.length]; [lia|]. rewrite (IH (10 * a + _)), (IH (10 * 0 + _)).
  rewrite Nat2Z.inj_succ, Z.pow_succ_r by lia. ring.
Qed.
Lemma digits_val_app s t : forall a, digits_val a (s +s+ t) = digits_val (digits_val a s) t.
Proof. induction s as [|c s IH]; intros a; [reflexivity|]. cbn [String.append digits_val]. apply IH. Qed.
Lemma digit_is_iff c : is_digit c = true <-> exists d, digit_is c d.
Proof.
  unfold is_digit, in_range, digit_is. rewrite andb_true_iff, !N.leb_le. split.
  - intros [A B]. exists (Z.of_N (N_of_ascii c) - 48). lia.
  - intros (d & E & L). lia.
Qed.
Lemma digit_is_val c d : digit_is c d -> Z.of_N (N_of_ascii c) - 48 = d.
Proof. intros [E _]. lia. Qed.
Lemma decimal_val s n : decimal s n -> s <> "" /\ str_forall is_digit s = true /\ digits_val 0 s = n /\ 0 <= n.
Proof.
  induction 1 as [c d D|s n c d H (N & A & V & P) D].
  - split; [discriminate|]. cbn [str_forall digits_val]. rewrite (proj2 (digit_is_iff c)) by eauto. rewrite (digit_is_val _ _ D). destruct D as [_ D]. split; [reflexivity|]. lia.
  - split; [destruct s; discriminate|]. rewrite str_forall_app, A, digits_val_app, V. cbn [str_forall digits_val]. rewrite (proj2 (digit_is_iff c)) by eauto. rewrite (digit_is_val _ _ D). destruct D as [_ D]. split; [reflexivity|]. lia.
Qed.
Lemma last_split (s : string) : s <> "" -> exists t c, s = t +s+ String c "".
Proof.
  induction s as [|c s IH]; [congruence|]. intros _. destruct s as [|c' s]; [exists "", c; reflexivity|]. destruct IH as (t & x & E); [discriminate|]. exists (String c t), x. now rewrite E.
Qed.
Lemma decimal_of s : s <> "" -> str_forall is_digit s = true -> decimal s (digits_val 0 s).
Proof.
  remember (String.length s) as n eqn:L. revert s L. induction n as [|n IH]; intros s L N D; [destruct s; [congruence|discriminate]|].
  destruct (last_split s N) as (t & c & ->). rewrite str_forall_app in D. apply andb_prop in D as [D1 D2]. cbn [str_forall] in D2. rewrite andb_true_r in D2.
  apply digit_is_iff in D2 as (d & D2). rewrite slen_app in L. cbn [String.length] in L. rewrite digits_val_app. cbn [digits_val]. rewrite (digit_is_val _ _ D2).
  destruct t as [|x t]; [cbn [digits_val]; replace (10 * 0 + d) with d by lia; now constructor|]. constructor; [|exact D2]. apply IH; [lia|discriminate|exact D1].
Qed.
Lemma decimal_iff s n : decimal s n <-> s <> "" /\ str_forall is_digit s = true /\ digits_val 0 s = n.
Proof. split; [intros H; now destruct (decimal_val _ _ H) as (A & B & C & _)|]. intros (A & B & <-). now apply decimal_of. Qed.
Lemma decimal_fun s n m : decimal s n -> decimal s m -> n = m.
Proof. intros A B. apply decimal_iff in A as (_ & _ & <-), B as (_ & _ & <-). reflexivity. Qed.
Lemma decimal_not_minus s n : decimal (String "-" s) n -> False.
Proof. intros H. apply decimal_iff in H as (_ & H & _). discriminate. Qed.

Lemma neq_str_b s : s <> "" -> negb (seqb s "") = true.
Proof. destruct (seqb_spec s ""); [congruence|reflexivity]. Qed.
Lemma dec_int_some lit z old : dec_int (JNum lit) old = Some z <-> whole lit z /\ int64 z.
Proof.
  unfold dec_int, int64. change (2 ^ 63) with 9223372036854775808.
  assert (G : forall (neg : bool) ds, (if negb (seqb ds "") && str_forall is_digit ds
      then if (-9223372036854775808 <=? (if neg then - digits_val 0 ds else digits_val 0 ds)) && ((if neg then - digits_val 0 ds else digits_val 0 ds) <=? 9223372036854775807)
           then Some (if neg then - digits_val 0 ds else digits_val 0 ds) else None else None) = Some z
     <-> exists n, decimal ds n /\ z = (if neg then - n else n) /\ (-9223372036854775808 <= z < 9223372036854775808)).
  { intros neg ds. set (w := if neg then - digits_val 0 ds else digits_val 0 ds). split.
    - destruct (seqb_spec ds "") as [->|N]; cbn [negb andb]; [discriminate|]. destruct (str_forall is_digit ds) eqn:D; [|discriminate].
      destruct (Z.leb_spec (-9223372036854775808) w); cbn [andb]; [|discriminate]. destruct (Z.leb_spec w 9223372036854775807); [|discriminate].
      intros E. injection E as <-. exists (digits_val 0 ds). split; [now apply decimal_of|]. split; [reflexivity|lia].
    - intros (n & D & -> & L). apply decimal_iff in D as (N & D & <-). rewrite (neq_str_b _ N), D. cbn [andb]. fold w in L |- *.
      destruct (Z.leb_spec (-9223372036854775808) w); [|lia]. destruct (Z.leb_spec w 9223372036854775807); [reflexivity|lia]. }
  destruct lit as [|c r].
  - rewrite (G false ""). split; [intros (n & D & _)|intros [W _]; inversion W; subst]; exfalso; apply decimal_iff in D || apply decimal_iff in H; tauto.
  - destruct (ascii_dec c "-") as [->|C].
    + rewrite (G true r). split.
      * intros (n & D & -> & L). split; [now constructor|exact L].
      * intros [W L]. inversion W as [s n D|s n D]; subst; [now apply decimal_not_minus in D|]. eauto.
    + replace (match String c r with String "-" r => (true, r) | _ => (false, String c r) end) with (false, String c r) by (destruct c as [[] [] [] [] [] [] [] []]; congruence).
      rewrite (G false (String c r)). split.
      * intros (n & D & -> & L). split; [now constructor|exact L].
      * intros [W L]. inversion W as [s n D|s n D]; subst; [eauto|congruence].
Qed.

(** ** floats *)
Lemma decimal_digits s : digits s -> exists n, decimal s n.
Proof. intros D. apply digits_iff in D as [N D]. eexists. apply decimal_of; [exact N|exact D]. Qed.
Lemma power_exponent x : exponent x -> exists e, power x e.
Proof.
  intros [|c s C D|c g s C G D]; [exists 0; constructor|destruct (decimal_digits s D) as (n & N); exists n; now constructor|].
  destruct (decimal_digits s D) as (n & N). destruct G as [-> | ->]; [exists n|exists (- n)]; now constructor.
Qed.
Lemma number_magnitude lit : number lit -> exists s m e, (lit = s \/ lit = String "-" s) /\ (forall r, s <> String "-" r) /\ magnitude s m e.
Proof.
  assert (I : forall i, integer i -> exists n, decimal i n).
  { intros i [|c C Z|c s C Z D]; apply decimal_digits; [|now constructor|now constructor]. constructor. unfold digit. cbn. lia. }
  assert (G : forall i f x, integer i -> fraction f -> exponent x -> (forall r, i +s+ f +s+ x <> String "-" r) /\ exists m e, magnitude (i +s+ f +s+ x) m e).
  { intros i f x Hi Hf Hx. destruct (I i Hi) as (n & N). destruct (power_exponent x Hx) as (e & P). split.
    - intros r. destruct (decimal_val _ _ N) as (Ne & D & _). destruct i as [|c i]; [congruence|]. cbn [str_forall] in D. intros E. injection E as -> _. discriminate.
    - destruct Hf as [|s D]; [exists n, e; now constructor|]. destruct (decimal_digits s D) as (b & B). eexists _, _. exact (mg_point _ _ _ _ _ _ N B P). }
  intros [i f x Hi Hf Hx|i f x Hi Hf Hx]; destruct (G i f x Hi Hf Hx) as (M & m & e & Q); exists (i +s+ f +s+ x), m, e; auto.
Qed.
Lemma power_start x e : power x e -> no_digit x /\ match x with String c _ => c = "e"%char \/ c = "E"%char | _ => True end.
Proof. intros [|c s n [-> | ->] D|c s n [-> | ->] D|c s n [-> | ->] D]; cbn; auto. Qed.
Definition exp_val (s : string) : Z :=
  match s with
  | String _ (String "-"%char r) => Z.opp (digits_val 0 r)
  | String _ (String "+"%char r) => digits_val 0 r
  | String _ r => digits_val 0 r
  | "" => 0%Z
  end.
Lemma power_val x e : power x e -> exp_val x = e.
Proof.
  intros [|c s n _ D|c s n _ D|c s n _ D]; cbn [exp_val]; [reflexivity| |now apply decimal_iff in D as (_ & _ & ->)|now apply decimal_iff in D as (_ & _ & ->)].
  apply decimal_iff in D as (N & D & <-). destruct s as [|a s]; [congruence|]. cbn [str_forall] in D. apply andb_prop in D as [D _].
  destruct a as [[] [] [] [] [] [] [] []]; try discriminate D; reflexivity.
Qed.
Definition unsigned_parts (s : string) : Z * Z :=
  let '(i, s) := span_digits s in
  let '(f, s) := match s with String "."%char r => span_digits r | _ => ("", s) end in
  (digits_val 0 (i +s+ f), exp_val s - Z.of_nat (String.length f)).
Lemma unsigned_magnitude s m e : magnitude s m e -> unsigned_parts s = (m, e).
Proof.
  unfold unsigned_parts. intros [i x m' e' I X|i f x a b e' I F X].
  - destruct (power_start _ _ X) as [N S]. apply decimal_iff in I as (_ & D & <-). rewrite span_digits_app by assumption.
    replace (match x with String "." r => span_digits r | _ => ("", x) end) with ("", x).
    + rewrite (power_val _ _ X), sapp_nil_r. cbn [String.length]. f_equal. lia.
    + destruct x as [|c x]; [reflexivity|]. destruct S as [-> | ->]; reflexivity.
  - destruct (power_start _ _ X) as [N _]. apply decimal_iff in I as (_ & D & <-), F as (_ & D' & <-). rewrite span_digits_app by (try exact D; reflexivity).
    rewrite span_digits_app by assumption. rewrite (power_val _ _ X), digits_val_app, digits_val_acc. reflexivity.
Qed.
Lemma float_parts_minus s : float_parts (String "-" s) = unsigned_parts s.
Proof. reflexivity. Qed.
Lemma float_parts_plain s : (forall r, s <> String "-" r) -> float_parts s = unsigned_parts s.
Proof.
  intros N. unfold float_parts. replace (match s with String "-" r => r | _ => s end) with s; [reflexivity|].
  destruct s as [|c s]; [reflexivity|]. destruct (ascii_dec c "-") as [->|C]; [now destruct (N s)|]. destruct c as [[] [] [] [] [] [] [] []]; congruence.
Qed.
Lemma magnitude_plain s m e : magnitude s m e -> forall r, s <> String "-" r.
Proof.
  assert (G : forall i x n, decimal i n -> forall r, i +s+ x <> String "-" r).
  { intros i x n D r. apply decimal_iff in D as (N & D & _). destruct i as [|c i]; [congruence|]. cbn [str_forall] in D. intros E. injection E as -> _. discriminate. }
  intros [i x m' e' I X|i f x a b e' I F X]; eapply G; eauto.
Qed.
Lemma float_ok_iff lit : float_ok lit = true <-> number lit /\ float64 lit.
Proof.
  unfold float_ok, float64, finite. split.
  - destruct (float_parts lit) as [m e] eqn:P. rewrite andb_true_iff, Z.ltb_lt. intros [V L]. apply number_iff in V. split; [exact V|].
    destruct (number_magnitude _ V) as (s & m' & e' & S & N & M). exists s, m', e'. split; [exact S|]. split; [exact M|].
    assert (E : float_parts lit = (m', e')).
    { destruct S as [-> | ->]; [rewrite (float_parts_plain _ N)|rewrite float_parts_minus]; now apply unsigned_magnitude. }
    rewrite E in P. now injection P as -> ->.
  - intros (V & s & m & e & S & M & F).
    assert (E : float_parts lit = (m, e)).
    { destruct S as [-> | ->]; [rewrite (float_parts_plain _ (magnitude_plain _ _ _ M))|rewrite float_parts_minus]; now apply unsigned_magnitude. }
    rewrite E. apply number_iff in V. rewrite V. cbn [andb]. now apply Z.ltb_lt.
Qed.
