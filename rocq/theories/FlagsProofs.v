From Verif Require Import GoStr GoStrFacts Types Main Json JsonDec LockIO LockJson Flags FlagsSpec.
Local Open Scope Z_scope.

(** ** bytes *)
Ltac bytes c := destruct c as [[] [] [] [] [] [] [] []]; vm_compute.
Lemma digit_spec c d : digit c d <-> digit_of c = d /\ d < 36.
Proof.
  split.
  - intros [[A B]|[[A B]|[A B]]];
      [assert (d = Z.of_N (N_of_ascii c) - 48) by lia|assert (d = Z.of_N (N_of_ascii c) - 87) by lia|assert (d = Z.of_N (N_of_ascii c) - 55) by lia];
      subst d; clear B; revert A; bytes c; intros A; (discriminate A || (split; reflexivity)).
  - intros [<- B]. revert B. unfold digit. bytes c; intros B;
      (discriminate B || (left; split; reflexivity) || (right; left; split; reflexivity) || (right; right; split; reflexivity)).
Qed.
Lemma digit_ok base c : In base [2; 8; 10; 16] -> digit_of c < base -> (is_digit c || (Z.eqb base 16 && in_range 97 102 (lower_char c))) = true.
Proof. intros [<-|[<-|[<-|[<-|[]]]]]; unfold digit_of; bytes c; intros H; (reflexivity || discriminate H). Qed.
Lemma digit_nonneg c : 0 <= digit_of c.
Proof. unfold digit_of; bytes c; discriminate. Qed.
Lemma under_digit : digit_of "_" = 36. Proof. reflexivity. Qed.

(** ** integers *)
Definition small (base : Z) : Prop := In base [2; 8; 10; 16].
Lemma small_le base : small base -> 2 <= base <= 16.
Proof. intros [<-|[<-|[<-|[<-|[]]]]]; lia. Qed.
Lemma loop_spec base : small base -> forall s n m,
  ((uint_loop base s n = Some m /\ underscore_ok (Z.eqb base 16) "0" s = true) <-> digits base n s m)
  /\ ((uint_loop base s n = Some m /\ underscore_ok (Z.eqb base 16) "_" s = true)
      <-> exists c d s', s = String c s' /\ digit c d /\ d < base /\ digits base (n * base + d) s' m).
Proof.
  intros B. pose proof (small_le base B) as SB. induction s as [|c s IH]; intros n m; (split; [|split]).
  - split; [intros [[= <-] _]; constructor|]. intros D; inversion D; subst. split; reflexivity.
  - intros [_ F]. discriminate F.
  - intros (c & d & s' & E & _). discriminate E.
  - cbn [uint_loop underscore_ok]. destruct (Ascii.eqb_spec c "_") as [->|U].
    + replace (is_digit "_" || Z.eqb base 16 && in_range 97 102 (lower_char "_")) with false
        by (change (in_range 97 102 (lower_char "_")) with false; rewrite andb_false_r; reflexivity).
      rewrite Ascii.eqb_refl. cbn [andb]. rewrite (proj2 (IH n m)). split.
      * intros (c & d & s' & -> & Dc & L & D). eapply dg_under; eauto.
      * intros D. inversion D as [|? ? ? ? ? Dc L D'|? c d s' ? Dc L D']; subst.
        -- apply digit_spec in Dc as [<- L']. rewrite under_digit in L. lia.
        -- exists c, d, s'. auto.
    + destruct (Z.leb_spec base (digit_of c)) as [L|L].
      * split; [intros [F _]; discriminate F|]. intros D. inversion D as [|? ? ? ? ? Dc L' D'|? ? ? ? ? Dc L' D']; subst; [|congruence].
        apply digit_spec in Dc as [<- _]. lia.
      * rewrite (digit_ok base c B L), (proj1 (IH _ m)). split.
        -- intros D. eapply dg_one; [apply digit_spec; split; [reflexivity|lia]|exact L|exact D].
        -- intros D. inversion D as [|? ? ? ? ? Dc L' D'|? ? ? ? ? Dc L' D']; subst; [|congruence]. apply digit_spec in Dc as [<- _]. exact D'.
  - cbn [uint_loop underscore_ok]. destruct (Ascii.eqb_spec c "_") as [->|U].
    + replace (is_digit "_" || Z.eqb base 16 && in_range 97 102 (lower_char "_")) with false
        by (change (in_range 97 102 (lower_char "_")) with false; rewrite andb_false_r; reflexivity).
      intros [_ F]. discriminate F.
    + destruct (Z.leb_spec base (digit_of c)) as [L|L]; [intros [F _]; discriminate F|].
      rewrite (digit_ok base c B L), (proj1 (IH _ m)). intros D. exists c, (digit_of c), s.
      split; [reflexivity|]. split; [apply digit_spec; split; [reflexivity|lia]|]. auto.
  - intros (c' & d & s' & [= <- <-] & Dc & L & D). apply digit_spec in Dc as [<- _]. cbn [uint_loop underscore_ok].
    destruct (Ascii.eqb_spec c "_") as [->|U]; [rewrite under_digit in L; lia|].
    destruct (Z.leb_spec base (digit_of c)); [lia|]. rewrite (digit_ok base c B L). apply (proj1 (IH _ m)). exact D.
Qed.
Lemma no_under hex : forall s i, has_char "_" s = false -> i <> "_"%char -> underscore_ok hex i s = true.
Proof.
  induction s as [|c s IH]; intros i H I; cbn [underscore_ok].
  - destruct (Ascii.eqb_spec i "_"); [contradiction|reflexivity].
  - cbn [has_char] in H. apply orb_false_elim in H as [H1 H2]. destruct (_ || _); [apply IH; [exact H2|discriminate]|].
    destruct (Ascii.eqb_spec c "_") as [->|U]; [discriminate H1|]. destruct (Ascii.eqb_spec i "_"); [contradiction|]. apply IH; [exact H2|discriminate].
Qed.
(** the test [go] makes *)
Lemma go_spec base s rest i n m : small base -> i <> "_"%char -> (has_char "_" s = false -> has_char "_" rest = false) ->
  match uint_loop base rest n with
  | Some k => if has_char "_" s && negb (underscore_ok (Z.eqb base 16) i rest) then None else Some k
  | None => None
  end = Some m <-> uint_loop base rest n = Some m /\ underscore_ok (Z.eqb base 16) i rest = true.
Proof.
  intros B I S. destruct (uint_loop base rest n) as [k|]; [|split; [discriminate|intros [F _]; discriminate F]].
  destruct (underscore_ok _ i rest) eqn:U; cbn [negb].
  - rewrite andb_false_r. split; [intros H; split; [exact H|reflexivity]|intros [H _]; exact H].
  - rewrite andb_true_r. destruct (has_char "_" s) eqn:H; [split; [discriminate|intros [_ F]; discriminate F]|].
    rewrite (no_under _ rest i (S eq_refl) I) in U. discriminate.
Qed.
Lemma base_spec p base : base <> 0 -> base_of p = base <-> In (p, base) [("b", 2); ("B", 2); ("o", 8); ("O", 8); ("x", 16); ("X", 16)]%char.
Proof.
  intros N. split.
  - intros <-. revert N. bytes p; intros N; try (exfalso; apply N; reflexivity); tauto.
  - intros [H|[H|[H|[H|[H|[H|[]]]]]]]; injection H as <- <-; reflexivity.
Qed.
Lemma base_small p : base_of p <> 0 -> small (base_of p) /\ 8 <= digit_of p < 36.
Proof. unfold digit_of, small. bytes p; intros N; try (exfalso; apply N; reflexivity); (split; [tauto|split; [discriminate|reflexivity]]). Qed.
Lemma oct_spec s m :
  match uint_loop 8 s 0 with
  | Some k => if has_char "_" (String "0" s) && negb (underscore_ok (Z.eqb 8 16) "^" (String "0" s)) then None else Some k
  | None => None
  end = Some m <-> digits 8 0 s m.
Proof.
  change (underscore_ok (Z.eqb 8 16) "^" (String "0" s)) with (underscore_ok (Z.eqb 8 16) "0" s).
  rewrite go_spec; [|right; left; reflexivity|discriminate|].
  - apply (loop_spec 8). right; left; reflexivity.
  - cbn [has_char]. intros H. apply orb_false_elim in H as [_ H]. exact H.
Qed.
Lemma uint_spec s m : parse_uint s = Some m <-> natural s m.
Proof.
  destruct s as [|c s]; [split; [discriminate|intros N; inversion N]|]. unfold parse_uint. cbv zeta.
  destruct (Ascii.eqb_spec c "0") as [->|C].
  - assert (NO : forall X, (natural (String "0" s) m <-> digits 8 0 s m \/ X) ->
                 (X -> False) -> (natural (String "0" s) m <-> digits 8 0 s m)) by tauto.
    assert (OCT : (forall p base s', s = String p s' -> s' <> "" -> base_of p = base -> base <> 0 -> False) -> (natural (String "0" s) m <-> digits 8 0 s m)).
    { intros NP. split; [|apply na_oct]. intros N. inversion N as [c d s' m' Dc L D|s' m' D|p base s' m' I E D]; subst.
      - apply digit_spec in Dc as [<- _]. change (digit_of "0") with 0 in L. lia.
      - exact D.
      - exfalso. assert (base <> 0) by (intros ->; cbn in I; decompose [or] I; try discriminate; contradiction).
        eapply NP; [reflexivity|exact E| |eassumption]. now apply base_spec. }
    destruct s as [|p [|d s']].
    + rewrite oct_spec, OCT; [reflexivity|]. intros ? ? ? E. discriminate E.
    + rewrite oct_spec, OCT; [reflexivity|]. intros ? ? ? E. injection E as <- <-. congruence.
    + destruct (Z.eqb_spec (base_of p) 0) as [Z0|Z0].
      * rewrite oct_spec, OCT; [reflexivity|]. intros ? ? ? E. injection E as <- <-. congruence.
      * destruct (base_small p Z0) as [SM P8]. rewrite go_spec; [|exact SM|discriminate|].
        2:{ cbn [has_char]. intros H. apply orb_false_elim in H as [_ H]. apply orb_false_elim in H as [_ H]. exact H. }
        rewrite (proj1 (loop_spec _ SM _ _ _)). split.
        -- intros D. eapply na_prefix; [apply base_spec; [exact Z0|reflexivity]|discriminate|exact D].
        -- intros N. inversion N as [c d' s2 m' Dc L D|s2 m' D|p' base s2 m' I E D]; subst.
           ++ apply digit_spec in Dc as [<- _]. change (digit_of "0") with 0 in L. lia.
           ++ inversion D as [|? ? ? ? ? Dc L D'|? ? ? ? ? Dc L D']; subst; [apply digit_spec in Dc as [<- _]; lia|]. change (digit_of "_") with 36 in P8. lia.
           ++ apply base_spec in I; [|intros ->; cbn in I; decompose [or] I; try discriminate; contradiction]. rewrite I. exact D.
  - rewrite go_spec; [|right; right; left; reflexivity|discriminate|trivial]. cbn [uint_loop underscore_ok].
    destruct (Ascii.eqb_spec c "_") as [->|U].
    + split; [intros [_ F]; discriminate F|]. intros N. inversion N as [? d s' m' Dc L D| |]; subst.
      apply digit_spec in Dc as [<- _]. rewrite under_digit in L. lia.
    + destruct (Z.leb_spec 10 (digit_of c)) as [L|L].
      * split; [intros [F _]; discriminate F|]. intros N. inversion N as [? d s' m' Dc L' D| |]; subst; try congruence.
        apply digit_spec in Dc as [<- _]. lia.
      * rewrite (digit_ok 10 c); [|right; right; left; reflexivity|exact L].
        rewrite (proj1 (loop_spec 10 ltac:(right; right; left; reflexivity) _ _ _)). cbn [Z.mul Z.add]. split.
        -- intros D. eapply na_dec; [apply digit_spec; split; [reflexivity|lia]| |exact D]. split; [|exact L].
           pose proof (digit_nonneg c). assert (digit_of c <> 0); [|lia].
           intros Z0. apply C. revert Z0. unfold digit_of. bytes c; intros Z0; (discriminate Z0 || reflexivity).
        -- intros N. inversion N as [? d s' m' Dc L' D| |]; subst; try congruence. apply digit_spec in Dc as [<- _]. exact D.
Qed.
Lemma natural_head s n : natural s n -> exists c t, s = String c t /\ c <> "+"%char /\ c <> "-"%char.
Proof.
  intros [c d s' m Dc L D|s' m D|p base s' m I E D]; eexists _, _; (split; [reflexivity|]).
  - apply digit_spec in Dc as [<- _]. split; intros ->; revert L; unfold digit_of; vm_compute; intros [_ F]; discriminate F.
  - split; discriminate.
  - split; discriminate.
Qed.
Lemma int_spec s z : parse_int s = Some z <-> integer s z.
Proof.
  unfold parse_int. split.
  - intros H. destruct s as [|c s]; [discriminate|]. destruct (Ascii.eqb_spec c "+") as [->|P]; [|destruct (Ascii.eqb_spec c "-") as [->|M]];
      (destruct (parse_uint _) as [n|] eqn:U in H; [|discriminate]); cbn [negb andb] in H; apply uint_spec in U.
    + destruct (Z.leb_spec (2 ^ 63) n); [discriminate|]. injection H as <-. now apply it_plus.
    + destruct (Z.ltb_spec (2 ^ 63) n); [discriminate|]. injection H as <-. now apply it_minus.
    + destruct (Z.leb_spec (2 ^ 63) n); [discriminate|]. injection H as <-. now apply it_plain.
  - intros [s' n N L|s' n N L|s' n N L].
    + destruct (natural_head _ _ N) as (c & t & -> & P & M). apply Ascii.eqb_neq in P, M. rewrite P, M. apply uint_spec in N. rewrite N.
      cbn [negb andb]. destruct (Z.leb_spec (2 ^ 63) n); [lia|reflexivity].
    + rewrite Ascii.eqb_refl. apply uint_spec in N. rewrite N. cbn [negb andb]. destruct (Z.leb_spec (2 ^ 63) n); [lia|reflexivity].
    + change (Ascii.eqb "-" "+") with false. rewrite Ascii.eqb_refl. apply uint_spec in N. rewrite N. cbn [negb andb]. destruct (Z.ltb_spec (2 ^ 63) n); [lia|reflexivity].
Qed.

(** ** arguments *)
Lemma name_form c t : c <> "-"%char ->
  match flag_name (String c t) with
  | Flag n v => has_char "=" n = false /\ String c t = n +s+ match v with None => "" | Some x => "=" +s+ x end /\ exists n', n = String c n'
  | BadSyntax => c = "="%char
  | _ => False
  end.
Proof.
  intros C. cbn [flag_name]. apply Ascii.eqb_neq in C. rewrite C. cbn [orb]. destruct (Ascii.eqb_spec c "=") as [->|E]; [reflexivity|].
  unfold cut. destruct (cut_at "=" t) as [[b a]|] eqn:K.
  - apply cut_at_char in K as [-> K]. cbn [has_char]. apply not_eq_sym, Ascii.eqb_neq in E. rewrite E, K. eauto.
  - apply cut_at_char_none in K. cbn [has_char]. apply not_eq_sym, Ascii.eqb_neq in E. rewrite E, K. cbn [append]. rewrite sapp_nil_r. eauto.
Qed.
Lemma form_sound s :
  match arg_form_of s with
  | Plain => plain s | Terminator => s = "--" | BadSyntax => malformed s | Flag n v => written s n v
  end.
Proof.
  destruct s as [|a [|b t]]; cbn [arg_form_of].
  - left. reflexivity.
  - destruct (Ascii.eqb_spec a "-") as [->|A]; [right; left; reflexivity|]. right; right. eauto.
  - destruct (Ascii.eqb_spec a "-") as [->|A]; cbn [negb]; [|right; right; eauto].
    destruct (Ascii.eqb_spec b "-") as [->|B].
    + destruct (seqb_spec t "") as [->|T]; [reflexivity|]. destruct t as [|c t]; [congruence|]. clear T.
      destruct (Ascii.eqb_spec c "-") as [->|C]; [exists t; left; reflexivity|]. pose proof (name_form c t C) as F.
      destruct (flag_name (String c t)) as [| | |n v]; try contradiction; [subst c; exists t; right; right; reflexivity|].
      destruct F as (F & E & n' & ->). exists "--", c, n'. repeat split; auto. cbn [append]. do 2 f_equal. exact E.
    + pose proof (name_form b t B) as F. destruct (flag_name (String b t)) as [| | |n v]; try contradiction; [subst b; exists t; right; left; reflexivity|].
      destruct F as (F & E & n' & ->). exists "-", b, n'. repeat split; auto. cbn [append]. f_equal. exact E.
Qed.
Lemma form_written s n v : written s n v -> arg_form_of s = Flag n v.
Proof.
  intros (ds & c & t & D & -> & C & N & ->). cbn [has_char] in N. apply orb_false_elim in N as [N1 N2].
  assert (F : flag_name (String c t +s+ match v with None => "" | Some x => "=" +s+ x end) = Flag (String c t) v).
  { cbn [append flag_name]. apply Ascii.eqb_neq in C. rewrite C, Ascii.eqb_sym, N1. cbn [orb].
    destruct v as [x|]; [rewrite (cut_char_found "=" t x N2)|rewrite sapp_nil_r, (cut_char_absent "=" t N2)]; reflexivity. }
  destruct D as [-> | ->]; cbn [append arg_form_of] in *; rewrite Ascii.eqb_refl; cbn [negb].
  - pose proof C as C'. apply Ascii.eqb_neq in C'. rewrite C'. exact F.
  - cbn [Ascii.eqb Bool.eqb]. exact F.
Qed.
Lemma form_plain s : plain s -> arg_form_of s = Plain.
Proof.
  intros [->|[->|(c & t & -> & C)]]; [reflexivity|reflexivity|]. destruct t as [|b t]; [reflexivity|]. cbn [arg_form_of].
  apply Ascii.eqb_neq in C. rewrite C. reflexivity.
Qed.
Lemma form_malformed s : malformed s -> arg_form_of s = BadSyntax.
Proof. intros (t & [->|[->| ->]]); reflexivity. Qed.

(** ** flags *)
Lemma flag_bool n : find_flag n = Some FBool <-> In n switches.
Proof.
  split.
  - unfold find_flag, flag_table. cbn [find fst]. repeat (match goal with |- context [seqb ?a n] => destruct (seqb_spec a n) as [<-|] end; [intros H; try discriminate H; apply mem_iff; reflexivity|]). discriminate.
  - intros H. apply mem_iff in H. unfold mem, switches in H. cbn [existsb] in H. repeat (apply orb_prop in H as [H|H]; [apply seqb_eq in H as ->; reflexivity|]). discriminate H.
Qed.
Lemma flag_value n : find_flag n = Some FValue <-> In n ["parse-as"; "config"; "ignore"; "batch-size"].
Proof.
  split.
  - unfold find_flag, flag_table. cbn [find fst]. repeat (match goal with |- context [seqb ?a n] => destruct (seqb_spec a n) as [<-|] end; [intros H; try discriminate H; apply mem_iff; reflexivity|]). discriminate.
  - intros H. apply mem_iff in H. unfold mem in H. cbn [existsb] in H. repeat (apply orb_prop in H as [H|H]; [apply seqb_eq in H as ->; reflexivity|]). discriminate H.
Qed.
Lemma flag_known n : known n <-> find_flag n <> None.
Proof.
  unfold known. rewrite <- flag_bool, <- flag_value. destruct (find_flag n) as [[]|]; split; intros H; auto; try discriminate; [destruct H; discriminate|contradiction].
Qed.
Lemma bool_spec v b : parse_bool v = Some b <-> truth v b.
Proof.
  unfold parse_bool, truth. pose proof (mem_iff v ["1"; "t"; "T"; "true"; "TRUE"; "True"]) as T.
  pose proof (mem_iff v ["0"; "f"; "F"; "false"; "FALSE"; "False"]) as F.
  assert (T' : In v ["1"; "t"; "T"; "TRUE"; "true"; "True"] <-> In v ["1"; "t"; "T"; "true"; "TRUE"; "True"]) by (cbn [In]; tauto).
  assert (F' : In v ["0"; "f"; "F"; "FALSE"; "false"; "False"] <-> In v ["0"; "f"; "F"; "false"; "FALSE"; "False"]) by (cbn [In]; tauto).
  rewrite T', F', <- T, <- F. destruct (mem v _) eqn:A; [|destruct (mem v ["0"; _; _; _; _; _]) eqn:B].
  - split; [intros [= <-]; auto|]. intros [[-> _]|[-> B]]; [reflexivity|]. exfalso. clear A. pose proof (proj1 T eq_refl) as A. rewrite F in B. clear - A B. cbn [In] in A, B.
    decompose [or] A; subst; decompose [or] B; try discriminate; contradiction.
  - split; [intros [= <-]; auto|]. intros [[-> C]|[-> _]]; [discriminate C|reflexivity].
  - split; [discriminate|]. intros [[_ C]|[_ C]]; discriminate C.
Qed.
(** one setting *)
Definition assign (P : Opts) (f : string * value) : Opts :=
  match f with
  | (n, VBool b) => set_bool n b P
  | (n, VText v) => match set_value n v P with Some P' => P' | None => P end
  | (_, VInt z) => let '(mkOpts off pa cf nc up ni nd ve le lp js ud ua _ ig ar) := P in
                   mkOpts off pa cf nc up ni nd ve le lp js ud ua z ig ar
  end.
Lemma value_spec P n v : In n ["parse-as"; "config"; "ignore"; "batch-size"] ->
  (forall x, takes n v x -> set_value n v P = Some (assign P (n, x))) /\ (set_value n v P = None -> forall x, ~ takes n v x)
  /\ (set_value n v P <> None -> exists x, takes n v x).
Proof.
  intros I. assert (TX : forall n, In n ["parse-as"; "config"; "ignore"] -> set_value n v P <> None).
  { clear n I. destruct P. intros n [<-|[<-|[<-|[]]]]; discriminate. }
  assert (NS : ~ In n switches).
  { intros S. apply flag_bool in S. apply flag_value in I. congruence. }
  assert (A : forall x, takes n v x -> set_value n v P = Some (assign P (n, x))).
  { intros x T. destruct T as [n v b S _|n v S|v z Z]; [contradiction| |].
    - specialize (TX n S). cbn [assign]. destruct (set_value n v P); congruence.
    - apply int_spec in Z. destruct P. cbn [set_value assign]. change (seqb "batch-size" "parse-as") with false. change (seqb "batch-size" "config") with false.
      change (seqb "batch-size" "batch-size") with true. cbv iota. rewrite Z. reflexivity. }
  split; [exact A|]. split; [intros N x T; rewrite (A x T) in N; discriminate|].
  intros N. destruct I as [<-|[<-|[<-|[<-|[]]]]]; try (exists (VText v); apply tk_text; apply mem_iff; reflexivity).
  destruct (parse_int v) as [z|] eqn:Z; [exists (VInt z); apply tk_int, int_spec, Z|]. exfalso. apply N. destruct P. cbn [set_value].
  change (seqb "batch-size" "parse-as") with false. change (seqb "batch-size" "config") with false.
  change (seqb "batch-size" "batch-size") with true. cbv iota. rewrite Z. reflexivity.
Qed.
Lemma takes_switch n v x : In n switches -> takes n v x -> exists b, x = VBool b /\ truth v b.
Proof.
  intros S T. destruct T as [n v b _ T|n v I|v z _]; [eauto| |].
  - exfalso. apply flag_bool in S. assert (In n ["parse-as"; "config"; "ignore"; "batch-size"]) by (cbn [In] in *; tauto). apply flag_value in H. congruence.
  - apply flag_bool in S. discriminate S.
Qed.
Lemma known_value n : known n -> ~ In n switches -> In n ["parse-as"; "config"; "ignore"; "batch-size"].
Proof. intros [K|K] N; [contradiction|exact K]. Qed.
Lemma takes_known n v x : takes n v x -> known n.
Proof. intros [m w b S _|m w S|w z _]; [left; exact S| |]; right; [cbn [In] in *; tauto|apply mem_iff; reflexivity]. Qed.

(** ** the command line *)
Lemma gives_step P args f r : gives args f r -> parse_flags P args = parse_flags (assign P f) r.
Proof.
  intros [s n r' W S|s n v x r' W T|s n v x r' W N T]; cbn [parse_flags]; rewrite (form_written _ _ _ W).
  - rewrite (proj2 (flag_bool n) S). reflexivity.
  - destruct (find_flag n) as [[]|] eqn:F.
    + apply flag_bool in F. destruct (takes_switch _ _ _ F T) as (b & -> & B). apply bool_spec in B. rewrite B. reflexivity.
    + apply flag_value in F. now rewrite (proj1 (value_spec P n v F) x T).
    + exfalso. exact (proj1 (flag_known n) (takes_known _ _ _ T) F).
  - pose proof (takes_known _ _ _ T) as K. pose proof (known_value _ K N) as V. rewrite (proj2 (flag_value n) V).
    now rewrite (proj1 (value_spec P n v V) x T).
Qed.
Lemma cmdline_parse args l rest : cmdline args l rest -> forall P, parse_flags P args = inr (set_args (fold_left assign l P) rest).
Proof.
  induction 1 as [|s r PL|r|args f r l rest G C IH]; intros P.
  - reflexivity.
  - cbn [parse_flags fold_left]. now rewrite (form_plain s PL).
  - reflexivity.
  - rewrite (gives_step P _ _ _ G), IH. reflexivity.
Qed.
Lemma refused_parse args c : refused args c -> forall P, parse_flags P args = inl c.
Proof.
  induction 1 as [s r M|s n v r W H|s n v r W K H1 H2|s n v r W K N|s n W K S|s n v r W K S N|args f r c G C IH]; intros P; cbn [parse_flags].
  - now rewrite (form_malformed s M).
  - rewrite (form_written _ _ _ W). destruct H as [->| ->]; reflexivity.
  - rewrite (form_written _ _ _ W). destruct (find_flag n) as [k|] eqn:F; [exfalso; apply K, flag_known; congruence|].
    destruct (seqb_spec n "help"); [contradiction|]. destruct (seqb_spec n "h"); [contradiction|]. reflexivity.
  - rewrite (form_written _ _ _ W). destruct (find_flag n) as [[]|] eqn:F.
    + apply flag_bool in F. destruct (parse_bool v) as [b|] eqn:B; [|reflexivity]. exfalso. apply (N (VBool b)), tk_switch; [exact F|now apply bool_spec].
    + apply flag_value in F. destruct (value_spec P n v F) as (_ & _ & E). destruct (set_value n v P); [|reflexivity]. destruct E as [x T]; [discriminate|]. exfalso. exact (N x T).
    + exfalso. exact (proj1 (flag_known n) K F).
  - rewrite (form_written _ _ _ W), (proj2 (flag_value n) (known_value _ K S)). reflexivity.
  - pose proof (known_value _ K S) as F. rewrite (form_written _ _ _ W), (proj2 (flag_value n) F).
    destruct (value_spec P n v F) as (_ & _ & E). destruct (set_value n v P); [|reflexivity]. destruct E as [x T]; [discriminate|]. exfalso. exact (N x T).
  - exact (eq_trans (gives_step P _ _ _ G) (IH _)).
Qed.
Lemma cmdline_or_refused : forall k args, (List.length args <= k)%nat -> (exists l rest, cmdline args l rest) \/ (exists c, refused args c).
Proof.
  induction k as [|k IH]; intros args L.
  - destruct args; [|cbn in L; lia]. left. exists [], []. constructor.
  - destruct args as [|s r]; [left; exists [], []; constructor|]. cbn [List.length] in L.
    assert (ST : forall f r', gives (s :: r) f r' -> (List.length r' <= k)%nat -> (exists l rest, cmdline (s :: r) l rest) \/ (exists c, refused (s :: r) c)).
    { intros f r' G L'. destruct (IH r' L') as [(l & rest & C)|(c & C)]; [left; exists (f :: l), rest; now apply cm_flag with r'|right; exists c; now apply rf_later with f r']. }
    pose proof (form_sound s) as F. destruct (arg_form_of s) as [| | |n v].
    + left. exists [], (s :: r). now constructor.
    + subst s. left. exists [], r. constructor.
    + right. exists 2. now constructor.
    + destruct (find_flag n) as [[]|] eqn:FF.
      * apply flag_bool in FF. destruct v as [v|]; [|apply ST with (n, VBool true) r; [now constructor|lia]].
        destruct (parse_bool v) as [b|] eqn:B.
        -- apply ST with (n, VBool b) r; [|lia]. apply gv_value with v; [exact F|]. apply tk_switch; [exact FF|now apply bool_spec].
        -- right. exists 2. apply rf_value with n v; [exact F|left; exact FF|]. intros x T.
           destruct (takes_switch _ _ _ FF T) as (b & -> & T'). apply bool_spec in T'. congruence.
      * assert (NS : ~ In n switches) by (intros S; apply flag_bool in S; congruence). apply flag_value in FF.
        assert (K : known n) by (right; exact FF).
        destruct v as [v|]; [|destruct r as [|v r]].
        -- destruct (value_spec (default_opts "") n v FF) as (_ & E1 & E2). destruct (set_value n v (default_opts "")) eqn:SV.
           ++ destruct E2 as [x T]; [discriminate|]. apply ST with (n, x) r; [now apply gv_value with v|lia].
           ++ right. exists 2. apply rf_value with n v; auto.
        -- right. exists 2. now apply rf_missing with n.
        -- destruct (value_spec (default_opts "") n v FF) as (_ & E1 & E2). cbn [List.length] in L. destruct (set_value n v (default_opts "")) eqn:SV.
           ++ destruct E2 as [x T]; [discriminate|]. apply ST with (n, x) r; [now apply gv_next|lia].
           ++ right. exists 2. apply rf_next with n; auto.
      * assert (NK : ~ known n) by (intros K; apply flag_known in K; congruence).
        destruct (seqb_spec n "h") as [->|H1]; [right; exists 0; apply rf_help with "h" v; auto|].
        destruct (seqb_spec n "help") as [->|H2]; [right; exists 0; apply rf_help with "help" v; auto|].
        right. exists 2. apply rf_unknown with n v; auto.
Qed.

(** ** what the settings amount to *)
Lemma gives_takes args f r : gives args f r -> exists v, takes (fst f) v (snd f).
Proof.
  intros [s n r' W S|s n v x r' W T|s n v x r' W N T]; [|eauto|eauto]. exists "true". apply tk_switch; [exact S|]. left. split; [reflexivity|]. apply mem_iff. reflexivity.
Qed.
Lemma cmdline_takes args l rest : cmdline args l rest -> Forall (fun f => exists v, takes (fst f) v (snd f)) l.
Proof. induction 1; constructor; [eapply gives_takes; eassumption|assumption]. Qed.
Lemma last_set_snoc n l f : last_set n (l ++ [f]) = if seqb (fst f) n then Some (snd f) else last_set n l.
Proof. unfold last_set. rewrite rev_app_distr. cbn [rev app find]. destruct (seqb (fst f) n); reflexivity. Qed.
Ltac closed_seqb := repeat match goal with |- context [seqb ?a ?b] => let r := eval vm_compute in (seqb a b) in change (seqb a b) with r end.
Ltac opts_cbn := cbn [set_args o_offline o_parse_as o_config o_no_config o_update o_no_ignores o_no_dbs o_version o_list_eco o_list_pkgs o_json o_use_dbs o_use_api o_batch o_ignores o_args].
Lemma amounts_snoc env l rest P f v :
  amounts_to env l rest (set_args P rest) -> takes (fst f) v (snd f) -> amounts_to env (l ++ [f]) rest (set_args (assign P f) rest).
Proof.
  intros A T. destruct P as [off pa cf nc up ni nd ve le lp js ud ua ba ig ar]. destruct f as [n x]. cbn [fst snd] in T.
  assert (G : forall m, last_set m (l ++ [(n, x)]) = if seqb n m then Some x else last_set m l) by (intros m; apply last_set_snoc).
  destruct A as [A1 A2 A3 A4 A5 A6 A7 A8 A9 A10 A11 A12 A13 A14 A15 A16].
  cbn [set_args o_offline o_parse_as o_config o_no_config o_update o_no_ignores o_no_dbs o_version o_list_eco o_list_pkgs o_json o_use_dbs o_use_api o_batch o_ignores o_args] in *.
  unfold bool_of, text_of in *.
  destruct T as [n v b S _|n v S|v z Z].
  - assert (I : ig = flat_map (fun f => match f with (n, VText v) => if seqb n "ignore" then [v] else [] | _ => [] end) (l ++ [(n, VBool b)]))
      by (rewrite flat_map_app, <- A15; cbn [flat_map app]; symmetry; apply app_nil_r).
    unfold switches in S. repeat (destruct S as [<-|S]; [|]); try contradiction S; unfold assign, set_bool; closed_seqb; cbv iota;
      (split; opts_cbn; [..|exact I|reflexivity]);
      unfold bool_of, text_of; rewrite G; match goal with |- context [if seqb ?a ?b then _ else _] => let r := eval vm_compute in (seqb a b) in change (seqb a b) with r end; cbv iota; first [reflexivity|assumption].
  - destruct S as [<-|[<-|[<-|[]]]]; unfold assign, set_value; closed_seqb; cbv iota;
      (split; opts_cbn; [.. | |reflexivity]);
      try (rewrite flat_map_app, <- A15; cbn [flat_map]; closed_seqb; cbv iota; rewrite ?app_nil_r; reflexivity);
      unfold bool_of, text_of; rewrite G; match goal with |- context [if seqb ?a ?b then _ else _] => let r := eval vm_compute in (seqb a b) in change (seqb a b) with r end; cbv iota; first [reflexivity|assumption].
  - unfold assign. split; opts_cbn; [.. | |reflexivity];
      try (rewrite flat_map_app, <- A15; cbn [flat_map app]; rewrite ?app_nil_r; reflexivity);
      unfold bool_of, text_of; rewrite G; match goal with |- context [if seqb ?a ?b then _ else _] => let r := eval vm_compute in (seqb a b) in change (seqb a b) with r end; cbv iota; first [reflexivity|assumption].
Qed.
Lemma amounts env l rest : Forall (fun f => exists v, takes (fst f) v (snd f)) l -> amounts_to env l rest (set_args (fold_left assign l (default_opts env)) rest).
Proof.
  induction l as [|f l IH] using rev_ind; intros F.
  - split; reflexivity.
  - apply Forall_app in F as [F1 F2]. inversion F2 as [|? ? [v T] _]; subst. rewrite fold_left_app. cbn [fold_left]. apply amounts_snoc with v; auto.
Qed.
Lemma amounts_unique env l rest P Q : amounts_to env l rest P -> amounts_to env l rest Q -> P = Q.
Proof.
  intros A B. destruct A as [A1 A2 A3 A4 A5 A6 A7 A8 A9 A10 A11 A12 A13 A14 A15 A16].
  destruct B as [B1 B2 B3 B4 B5 B6 B7 B8 B9 B10 B11 B12 B13 B14 B15 B16]. destruct P as [p1 p2 p3 p4 p5 p6 p7 p8 p9 p10 p11 p12 p13 p14 p15 p16], Q as [q1 q2 q3 q4 q5 q6 q7 q8 q9 q10 q11 q12 q13 q14 q15 q16].
  cbn [o_offline o_parse_as o_config o_no_config o_update o_no_ignores o_no_dbs o_version o_list_eco o_list_pkgs o_json o_use_dbs o_use_api o_batch o_ignores o_args] in *.
  subst. reflexivity.
Qed.

(** ** the theorems *)
Lemma parse_ok env args P : parse_flags (default_opts env) args = inr P <-> exists l rest, cmdline args l rest /\ amounts_to env l rest P.
Proof.
  split.
  - intros H. destruct (cmdline_or_refused _ args (le_n _)) as [(l & rest & C)|(c & C)].
    + exists l, rest. split; [exact C|]. rewrite (cmdline_parse _ _ _ C) in H. injection H as <-. apply amounts. eapply cmdline_takes, C.
    + rewrite (refused_parse _ _ C) in H. discriminate.
  - intros (l & rest & C & A). rewrite (cmdline_parse _ _ _ C). f_equal. eapply amounts_unique; [|exact A]. apply amounts. eapply cmdline_takes, C.
Qed.
Lemma parse_refused env args c : parse_flags (default_opts env) args = inl c <-> refused args c.
Proof.
  split; [|intros C; apply (refused_parse _ _ C)]. intros H.
  destruct (cmdline_or_refused _ args (le_n _)) as [(l & rest & C)|(c' & C)].
  - rewrite (cmdline_parse _ _ _ C) in H. discriminate.
  - rewrite (refused_parse _ _ C) in H. injection H as ->. exact C.
Qed.

(** ** every set of options can be asked for *)
Lemma dec_fuel_head f : forall n acc, (n < 2 ^ N.of_nat f)%N -> (0 < n)%N -> exists c t, dec_fuel f n acc = String c t /\ c <> "0"%char.
Proof.
  induction f as [|f IH]; intros n acc L P; [cbn in L; lia|]. cbn [dec_fuel]. destruct (N.ltb_spec n 10).
  - eexists _, _. split; [reflexivity|]. rewrite N.mod_small by lia. unfold digit_char. intros E.
    apply (f_equal N_of_ascii) in E. rewrite N_ascii_embedding in E by lia. change (N_of_ascii "0") with 48%N in E. lia.
  - apply IH; [|pose proof (N.div_str_pos n 10); lia].
    apply N.div_lt_upper_bound; [lia|]. rewrite Nnat.Nat2N.inj_succ, N.pow_succ_r' in L. lia.
Qed.
Lemma dec_of_N_head p : exists c t, dec_of_N (Npos p) = String c t /\ c <> "0"%char.
Proof.
  unfold dec_of_N. apply dec_fuel_head; [|lia]. rewrite Nnat.Nat2N.inj_succ, N.pow_succ_r'.
  assert ((Npos p < 2 ^ N.of_nat (N.size_nat (Npos p)))%N); [|lia].
  replace (N.of_nat (N.size_nat (Npos p))) with (N.size (Npos p)); [apply N.size_gt|]. cbn. clear. induction p; cbn; lia.
Qed.
Lemma is_digit_of c : is_digit c = true -> digit c (Z.of_N (N_of_ascii c) - 48) /\ 0 <= Z.of_N (N_of_ascii c) - 48 < 10.
Proof. intros D. split; [left; split; [exact D|lia]|]. revert D. bytes c; intros D; (discriminate D || (split; [discriminate|reflexivity])). Qed.
Lemma digits_dec s : str_forall is_digit s = true -> forall n, digits 10 n s (digits_val n s).
Proof.
  induction s as [|c s IH]; intros D n; [constructor|]. cbn [str_forall] in D. apply andb_prop in D as [D1 D2].
  destruct (is_digit_of c D1) as [Dc L]. cbn [digits_val]. eapply dg_one; [exact Dc|lia|].
  replace (n * 10 + (Z.of_N (N_of_ascii c) - 48)) with (10 * n + (Z.of_N (N_of_ascii c) - 48)); [apply IH, D2|]. lia.
Qed.
Lemma natural_dec p : natural (dec_of_N (Npos p)) (Zpos p).
Proof.
  destruct (dec_of_N_head p) as (c & t & E & C). pose proof (dec_of_N_val (Npos p)) as V.
  assert (D : str_forall is_digit (dec_of_N (Npos p)) = true) by (apply LockJson.dec_fuel_digits; reflexivity).
  rewrite E in *. cbn [str_forall] in D. apply andb_prop in D as [D1 D2]. destruct (is_digit_of c D1) as [Dc L]. cbn [digits_val] in V.
  eapply na_dec; [exact Dc| |].
  - split; [|lia]. assert (Z.of_N (N_of_ascii c) <> 48); [|lia]. intros Z0. apply C. revert Z0. bytes c; intros Z0; (discriminate Z0 || reflexivity).
  - change (Z.of_N (Npos p)) with (Zpos p) in V. rewrite <- V. replace (Z.of_N (N_of_ascii c) - 48) with (10 * 0 + (Z.of_N (N_of_ascii c) - 48)) by lia.
    now apply digits_dec.
Qed.
Lemma integer_dec z : - 2 ^ 63 <= z < 2 ^ 63 -> integer (dec_of_Z z) z.
Proof.
  intros L. destruct z as [|p|p]; cbn [dec_of_Z].
  - apply it_plain; [|lia]. apply na_oct. constructor.
  - apply it_plain; [apply natural_dec|lia].
  - change (Zneg p) with (- Zpos p). apply it_minus; [apply natural_dec|lia].
Qed.
Definition spelled (n v : string) : string := "-" +s+ n +s+ "=" +s+ v.
Lemma known_name n : known n -> exists c t, n = String c t /\ c <> "-"%char /\ has_char "=" n = false.
Proof.
  intros K. assert (H : mem n (switches ++ ["parse-as"; "config"; "ignore"; "batch-size"]) = true) by (apply mem_iff, in_or_app; exact K).
  unfold mem, switches in H. cbn [app existsb] in H.
  repeat (apply orb_prop in H as [H|H]; [apply seqb_eq in H as ->; eexists _, _; split; [reflexivity|]; split; [discriminate|reflexivity]|]). discriminate H.
Qed.
Lemma spelled_written n v : known n -> written (spelled n v) n (Some v).
Proof. intros K. destruct (known_name n K) as (c & t & E & C & H). exists "-", c, t. split; [left; reflexivity|]. repeat split; auto. Qed.
Lemma cmdline_spelled l rest : (forall n v x, In (n, v, x) l -> takes n v x) ->
  cmdline (map (fun f => spelled (fst (fst f)) (snd (fst f))) l ++ "--" :: rest) (map (fun f => (fst (fst f), snd f)) l) rest.
Proof.
  induction l as [|[[n v] x] l IH]; intros T; cbn [map app fst snd]; [constructor|].
  assert (T1 : takes n v x) by (apply T; left; reflexivity).
  eapply cm_flag; [eapply gv_value; [apply spelled_written, (takes_known _ _ _ T1)|exact T1]|]. apply IH. intros; apply T; right; assumption.
Qed.
Definition spell_bool (b : bool) : string := if b then "true" else "false".
Definition settings_of (P : Opts) : list (string * string * value) :=
  let '(mkOpts off pa cf nc up ni nd ve le lp js ud ua ba ig ar) := P in
  map (fun f : string * bool => (fst f, spell_bool (snd f), VBool (snd f)))
    [("offline", off); ("no-config", nc); ("update-config-ignores", up); ("no-config-ignores", ni); ("no-config-databases", nd); ("version", ve);
     ("list-ecosystems", le); ("list-packages", lp); ("json", js); ("use-dbs", ud); ("use-api", ua)]
  ++ [("parse-as", pa, VText pa); ("config", cf, VText cf); ("batch-size", dec_of_Z ba, VInt ba)]
  ++ map (fun v => ("ignore", v, VText v)) ig.
Lemma settings_takes P : - 2 ^ 63 <= o_batch P < 2 ^ 63 -> forall n v x, In (n, v, x) (settings_of P) -> takes n v x.
Proof.
  destruct P as [off pa cf nc up ni nd ve le lp js ud ua ba ig ar]. cbn [o_batch]. intros L n v x I. unfold settings_of in I. apply in_app_or in I as [I|I].
  - apply in_map_iff in I as ([m b] & E & I). cbn [fst snd] in E. injection E as <- <- <-. apply tk_switch.
    + cbn [In] in I. decompose [or] I; try contradiction; match goal with H : (_, _) = (m, b) |- _ => injection H as <- <- end; apply mem_iff; reflexivity.
    + destruct b; [left|right]; (split; [reflexivity|]); apply mem_iff; reflexivity.
  - cbn [app In] in I. destruct I as [I|[I|[I|I]]].
    + injection I as <- <- <-. apply tk_text, mem_iff. reflexivity.
    + injection I as <- <- <-. apply tk_text, mem_iff. reflexivity.
    + injection I as <- <- <-. apply tk_int, integer_dec, L.
    + apply in_map_iff in I as (w & E & _). injection E as <- <- <-. apply tk_text, mem_iff. reflexivity.
Qed.
Lemma last_ignores n ig l : seqb "ignore" n = false -> last_set n (l ++ map (fun v => ("ignore", VText v)) ig) = last_set n l.
Proof.
  intros N. induction ig as [|v ig IH] using rev_ind; [cbn [map]; now rewrite app_nil_r|].
  rewrite map_app, app_assoc. cbn [map]. rewrite last_set_snoc. cbn [fst]. rewrite N. exact IH.
Qed.
Lemma settings_amount env P : amounts_to env (map (fun f => (fst (fst f), snd f)) (settings_of P)) (o_args P) P.
Proof.
  destruct P as [off pa cf nc up ni nd ve le lp js ud ua ba ig ar]. cbn [o_args].
  match goal with |- amounts_to _ ?l _ _ => assert (E : l =
    [("offline", VBool off); ("no-config", VBool nc); ("update-config-ignores", VBool up); ("no-config-ignores", VBool ni); ("no-config-databases", VBool nd); ("version", VBool ve);
     ("list-ecosystems", VBool le); ("list-packages", VBool lp); ("json", VBool js); ("use-dbs", VBool ud); ("use-api", VBool ua);
     ("parse-as", VText pa); ("config", VText cf); ("batch-size", VInt ba)] ++ map (fun v => ("ignore", VText v)) ig) end.
  { unfold settings_of. rewrite !map_app, map_map. cbn [map fst snd app]. do 14 f_equal. rewrite map_map. reflexivity. }
  rewrite E. clear E. split; opts_cbn; try (unfold bool_of, text_of; rewrite last_ignores by reflexivity; reflexivity); [|reflexivity].
  rewrite flat_map_app. cbn [flat_map]. closed_seqb. cbv iota. cbn [app]. induction ig as [|v ig IH]; cbn [map flat_map]; [reflexivity|].
  closed_seqb. cbv iota. cbn [app]. f_equal. exact IH.
Qed.
Lemma integer_range s z : integer s z -> - 2 ^ 63 <= z < 2 ^ 63.
Proof.
  assert (D : forall base n s m, 0 <= base -> 0 <= n -> digits base n s m -> 0 <= m).
  { intros base n t m B. intros N D; revert N. induction D as [n|n c d t m Dc L D IH|n c d t m Dc L D IH]; intros N; [exact N| |];
      apply IH; apply digit_spec in Dc as [<- _]; pose proof (digit_nonneg c); nia. }
  assert (N : forall t m, natural t m -> 0 <= m).
  { intros t m [c d t' m' Dc L H|t' m' H|p base t' m' I E H]; (eapply D; [| |exact H]); try lia.
    cbn [In] in I. decompose [or] I; try contradiction; match goal with H : (_, _) = (p, base) |- _ => injection H as <- <- end; lia. }
  intros [t n H L|t n H L|t n H L]; apply N in H; lia.
Qed.
Lemma parse_range env args P : parse_flags (default_opts env) args = inr P -> - 2 ^ 63 <= o_batch P < 2 ^ 63.
Proof.
  intros H. apply parse_ok in H as (l & rest & C & A). rewrite (at_batch _ _ _ _ A). pose proof (cmdline_takes _ _ _ C) as T.
  unfold last_set. destruct (find _ (rev l)) as [[n x]|] eqn:F; cbn [option_map snd]; [|lia].
  apply find_some in F as [F _]. apply in_rev in F. rewrite Forall_forall in T. destruct (T _ F) as [v TV]. cbn [fst snd] in TV.
  destruct TV as [m v b _ _|m v _|v z Z]; [lia|lia|]. eapply integer_range, Z.
Qed.
Lemma reachable env P : (exists args, parse_flags (default_opts env) args = inr P) <-> - 2 ^ 63 <= o_batch P < 2 ^ 63.
Proof.
  split; [intros [args H]; eapply parse_range, H|]. intros L. eexists. apply parse_ok. eexists _, _. split; [|apply settings_amount].
  apply cmdline_spelled, settings_takes, L.
Qed.
