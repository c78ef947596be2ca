(** The CSV reader reads exactly the texts of the grammar in LockfileSpec.v. *)
From Verif Require Import GoStr GoStrFacts GoSort GoSortFacts Types Lockfile Csv LockfileSpec CsvSpec LockfileProofs.

(** ** from texts to records *)
Lemma rev_str_cons c cur s : str_rev (String c cur) +s+ s = str_rev cur +s+ String c s.
Proof. now rewrite str_rev_cons, sapp_assoc. Qed.

Definition field_end (s : string) : Prop := s = "" \/ (exists r, s = String LF r) \/ exists r, s = String "," r.

Lemma run_unquoted t : forall cur fs tail,
  has_char quote t = false -> has_char "," t = false -> has_char nl t = false ->
  csv_record Unquoted cur fs (t +s+ tail) = csv_record Unquoted (str_rev t +s+ cur) fs tail.
Proof.
  induction t as [|c t IH]; intros cur fs tail Q C N; [reflexivity|].
  cbn [has_char] in Q, C, N. apply orb_false_iff in Q as [Q1 Q2], C as [C1 C2], N as [N1 N2].
  cbn [String.append csv_record]. rewrite (Ascii.eqb_sym c DQ), (Ascii.eqb_sym c ","), (Ascii.eqb_sym c LF).
  change (Ascii.eqb DQ c) with (Ascii.eqb quote c). change (Ascii.eqb LF c) with (Ascii.eqb nl c).
  rewrite Q1, C1, N1. rewrite IH by assumption. now rewrite str_rev_cons, sapp_assoc.
Qed.
Lemma run_quoted v : forall cur fs tail,
  csv_record Quoted cur fs (doubled v +s+ tail) = csv_record Quoted (str_rev v +s+ cur) fs tail.
Proof.
  induction v as [|c v IH]; intros cur fs tail; [reflexivity|].
  cbn [doubled]. change quote with DQ. destruct (Ascii.eqb c DQ) eqn:E.
  - apply Ascii.eqb_eq in E. subst c. cbn [String.append csv_record]. rewrite Ascii.eqb_refl, IH.
    now rewrite str_rev_cons, sapp_assoc.
  - cbn [String.append csv_record]. rewrite E, IH. now rewrite str_rev_cons, sapp_assoc.
Qed.
Lemma csv_field_rev v : csv_field (str_rev v +s+ "") = v.
Proof. unfold csv_field. now rewrite sapp_nil_r, str_rev_involutive. Qed.

Lemma run_field t v fs tail : field_text t v ->
  (tail = "" -> csv_record FieldStart "" fs (t +s+ tail) = inr (rev (v :: fs), ""))
  /\ (forall r, tail = String LF r -> csv_record FieldStart "" fs (t +s+ tail) = inr (rev (v :: fs), r))
  /\ (forall r, tail = String "," r -> csv_record FieldStart "" fs (t +s+ tail) = csv_record FieldStart "" (v :: fs) r).
Proof.
  intros [s Q C N|w].
  - destruct s as [|c s].
    { repeat split; intros; subst; reflexivity. }
    cbn [has_char] in Q, C, N. apply orb_false_iff in Q as [Q1 Q2], C as [C1 C2], N as [N1 N2].
    assert (K : csv_record FieldStart "" fs (String c s +s+ tail) = csv_record Unquoted (str_rev (String c s)) fs tail).
    { cbn [String.append csv_record]. rewrite (Ascii.eqb_sym c DQ), (Ascii.eqb_sym c ","), (Ascii.eqb_sym c LF).
      change (Ascii.eqb DQ c) with (Ascii.eqb quote c). change (Ascii.eqb LF c) with (Ascii.eqb nl c).
      rewrite Q1, C1, N1. rewrite run_unquoted by assumption. now rewrite str_rev_cons. }
    rewrite K. repeat split; intros; subst; cbn [csv_record]; unfold csv_field.
    + now rewrite str_rev_involutive.
    + change (Ascii.eqb LF DQ) with false. change (Ascii.eqb LF ",") with false. rewrite Ascii.eqb_refl. cbn iota.
      now rewrite str_rev_involutive.
    + change (Ascii.eqb "," DQ) with false. rewrite Ascii.eqb_refl. cbn iota. now rewrite str_rev_involutive.
  - assert (K : csv_record FieldStart "" fs (String quote (doubled w +s+ String quote "") +s+ tail)
                = csv_record AfterQuote (str_rev w +s+ "") fs tail).
    { cbn [String.append csv_record]. change (Ascii.eqb quote DQ) with true. cbn iota.
      rewrite sapp_assoc. cbn [String.append]. rewrite run_quoted. reflexivity. }
    rewrite K. repeat split; intros; subst; cbn [csv_record].
    + now rewrite csv_field_rev.
    + change (Ascii.eqb LF DQ) with false. change (Ascii.eqb LF ",") with false. rewrite Ascii.eqb_refl. cbn iota.
      now rewrite csv_field_rev.
    + change (Ascii.eqb "," DQ) with false. rewrite Ascii.eqb_refl. cbn iota. now rewrite csv_field_rev.
Qed.
Lemma run_record ts vs : Forall2 field_text ts vs -> ts <> [] -> forall fs,
  csv_record FieldStart "" fs (join "," ts) = inr (rev fs ++ vs, "")
  /\ forall r, csv_record FieldStart "" fs (join "," ts +s+ String LF r) = inr (rev fs ++ vs, r).
Proof.
  intros F. induction F as [|t v ts vs T F IH]; intros N fs; [contradiction|].
  destruct ts as [|t2 ts].
  - inversion F; subst. cbn [join]. split.
    + rewrite <- (sapp_nil_r t). destruct (run_field t v fs "" T) as [K _]. rewrite K by reflexivity. now cbn.
    + intros r. destruct (run_field t v fs (String LF r) T) as [_ [K _]]. rewrite (K r) by reflexivity. now cbn.
  - specialize (IH ltac:(discriminate)).
    change (join "," (t :: t2 :: ts)) with (t +s+ String "," (join "," (t2 :: ts))).
    split.
    + destruct (run_field t v fs (String "," (join "," (t2 :: ts))) T) as [_ [_ K]]. rewrite (K _ eq_refl).
      destruct (IH (v :: fs)) as [IH1 _]. rewrite IH1. cbn [rev]. now rewrite <- app_assoc.
    + intros r. rewrite sapp_assoc. cbn [String.append].
      destruct (run_field t v fs (String "," (join "," (t2 :: ts) +s+ String LF r)) T) as [_ [_ K]].
      rewrite (K _ eq_refl).
      destruct (IH (v :: fs)) as [_ IH2]. rewrite IH2. cbn [rev]. now rewrite <- app_assoc.
Qed.

(** ** from records back to texts *)
Definition consumed (m : csv_mode) (cur : string) : string :=
  match m with
  | FieldStart => ""
  | Unquoted => str_rev cur
  | Quoted => String quote (doubled (str_rev cur))
  | AfterQuote => String quote (doubled (str_rev cur) +s+ String quote "")
  end.
Definition plain (s : string) : Prop := has_char quote s = false /\ has_char "," s = false /\ has_char nl s = false.
Definition mode_ok (m : csv_mode) (cur : string) : Prop :=
  match m with FieldStart => cur = "" | Unquoted => plain (str_rev cur) | _ => True end.
Lemma doubled_app a b : doubled (a +s+ b) = doubled a +s+ doubled b.
Proof.
  induction a as [|c a IH]; [reflexivity|]. cbn [String.append doubled].
  destruct (Ascii.eqb c quote); cbn [String.append]; now rewrite IH.
Qed.
Lemma plain_snoc cur c : plain (str_rev cur) -> Ascii.eqb c DQ = false -> Ascii.eqb c "," = false -> Ascii.eqb c LF = false ->
  plain (str_rev (String c cur)).
Proof.
  intros [Q [C N]] A B D. unfold plain. rewrite str_rev_cons, !has_char_app, Q, C, N. cbn [has_char].
  rewrite Ascii.eqb_sym in A, B, D. change (Ascii.eqb quote c) with (Ascii.eqb DQ c). change (Ascii.eqb nl c) with (Ascii.eqb LF c).
  now rewrite A, B, D.
Qed.

Lemma record_inv s : forall m cur fs r rest, mode_ok m cur ->
  csv_record m cur fs s = inr (r, rest) ->
  exists t v ts vs tail, s = t +s+ tail /\ field_text (consumed m cur +s+ t) v
    /\ Forall2 field_text ts vs /\ r = rev fs ++ v :: vs
    /\ ((ts = [] /\ tail = "" /\ rest = "") \/ (ts = [] /\ tail = String LF rest)
        \/ (ts <> [] /\ ((tail = String "," (join "," ts) /\ rest = "")
                         \/ tail = String "," (join "," ts +s+ String LF rest)))).
Proof.
  assert (KF : forall m cur, mode_ok m cur -> m <> Quoted -> field_text (consumed m cur +s+ "") (csv_field cur)).
  { intros m cur OK NQ. rewrite sapp_nil_r. destruct m; cbn in OK |- *; try congruence.
    - subst. apply ft_plain; reflexivity.
    - destruct OK as [A [B C]]. now apply ft_plain.
    - apply ft_quoted. }
  assert (NEXT : forall s m cur fs r rest,
    (forall m cur fs r rest, mode_ok m cur ->
      csv_record m cur fs s = inr (r, rest) ->
      exists t v ts vs tail, s = t +s+ tail /\ field_text (consumed m cur +s+ t) v
    /\ Forall2 field_text ts vs /\ r = rev fs ++ v :: vs
    /\ ((ts = [] /\ tail = "" /\ rest = "") \/ (ts = [] /\ tail = String LF rest)
        \/ (ts <> [] /\ ((tail = String "," (join "," ts) /\ rest = "")
                         \/ tail = String "," (join "," ts +s+ String LF rest))))) ->
    mode_ok m cur -> m <> Quoted ->
    csv_record FieldStart "" (csv_field cur :: fs) s = inr (r, rest) ->
    exists t v ts vs tail, String "," s = t +s+ tail /\ field_text (consumed m cur +s+ t) v
    /\ Forall2 field_text ts vs /\ r = rev fs ++ v :: vs
    /\ ((ts = [] /\ tail = "" /\ rest = "") \/ (ts = [] /\ tail = String LF rest)
        \/ (ts <> [] /\ ((tail = String "," (join "," ts) /\ rest = "")
                         \/ tail = String "," (join "," ts +s+ String LF rest))))).
  { intros s' m cur fs r rest IH OK NQ H. apply IH in H; [|reflexivity].
    destruct H as [t [v [ts [vs [tail [H1 [H2 [H3 [H4 H5]]]]]]]]]. cbn [consumed String.append] in H2.
    exists "", (csv_field cur), (t :: ts), (v :: vs), (String "," s'). split; [reflexivity|].
    split; [now apply KF|]. split; [now constructor|]. split.
    { rewrite H4. cbn [rev]. now rewrite <- app_assoc. }
    right. right. split; [discriminate|]. subst s'.
    destruct H5 as [[A [B C]]|[[A B]|[A [[B C]|B]]]].
    - left. subst. cbn [join]. now rewrite sapp_nil_r.
    - right. subst. now cbn [join].
    - left. subst. destruct ts as [|t2 ts]; [congruence|]. split; reflexivity.
    - right. subst. destruct ts as [|t2 ts]; [congruence|].
      change (join "," (t :: t2 :: ts)) with (t +s+ String "," (join "," (t2 :: ts))). rewrite sapp_assoc. reflexivity. }
  assert (DONE : forall m cur fs rest, mode_ok m cur -> m <> Quoted ->
    exists t v ts vs tail, String LF rest = t +s+ tail /\ field_text (consumed m cur +s+ t) v
    /\ Forall2 field_text ts vs /\ rev (csv_field cur :: fs) = rev fs ++ v :: vs
    /\ ((ts = [] /\ tail = "" /\ rest = "") \/ (ts = [] /\ tail = String LF rest)
        \/ (ts <> [] /\ ((tail = String "," (join "," ts) /\ rest = "")
                         \/ tail = String "," (join "," ts +s+ String LF rest))))).
  { intros m cur fs rest OK NQ. exists "", (csv_field cur), [], [], (String LF rest).
    split; [reflexivity|]. split; [now apply KF|]. split; [constructor|]. split; [reflexivity|]. right. now left. }
  assert (GROW : forall c s m cur m2 cur2 fs r rest,
    (exists t v ts vs tail, s = t +s+ tail /\ field_text (consumed m2 cur2 +s+ t) v
    /\ Forall2 field_text ts vs /\ r = rev fs ++ v :: vs
    /\ ((ts = [] /\ tail = "" /\ rest = "") \/ (ts = [] /\ tail = String LF rest)
        \/ (ts <> [] /\ ((tail = String "," (join "," ts) /\ rest = "")
                         \/ tail = String "," (join "," ts +s+ String LF rest))))) ->
    consumed m2 cur2 = consumed m cur +s+ String c "" ->
    exists t v ts vs tail, String c s = t +s+ tail /\ field_text (consumed m cur +s+ t) v
    /\ Forall2 field_text ts vs /\ r = rev fs ++ v :: vs
    /\ ((ts = [] /\ tail = "" /\ rest = "") \/ (ts = [] /\ tail = String LF rest)
        \/ (ts <> [] /\ ((tail = String "," (join "," ts) /\ rest = "")
                         \/ tail = String "," (join "," ts +s+ String LF rest))))).
  { intros c s' m cur m2 cur2 fs r rest [t [v [ts [vs [tail [H1 [H2 [H3 [H4 H5]]]]]]]]] E.
    exists (String c t), v, ts, vs, tail. rewrite E, sapp_assoc in H2. cbn [String.append] in H2 |- *.
    now rewrite H1. }
  induction s as [|c s IH]; intros m cur fs r rest OK H.
  - assert (NQ : m <> Quoted) by (intros ->; discriminate).
    assert (inr (rev (csv_field cur :: fs), "") = (inr (r, rest) : csv_err + (list string * string))) as E.
    { rewrite <- H. destruct m; try reflexivity. congruence. }
    injection E as <- <-. exists "", (csv_field cur), [], [], "". split; [reflexivity|]. split; [now apply KF|].
    split; [constructor|]. split; [reflexivity|]. left. auto.
  - cbn [csv_record] in H. destruct m.
    + cbn in OK. subst cur. destruct (Ascii.eqb c DQ) eqn:A.
      { apply Ascii.eqb_eq in A. subst c. eapply GROW; [apply IH; [|exact H]; exact I|reflexivity]. }
      destruct (Ascii.eqb c ",") eqn:B.
      { apply Ascii.eqb_eq in B. subst c. apply NEXT; [exact IH|reflexivity|discriminate|exact H]. }
      destruct (Ascii.eqb c LF) eqn:C.
      { apply Ascii.eqb_eq in C. subst c. injection H as <- <-. apply DONE; [reflexivity|discriminate]. }
      eapply GROW; [apply IH; [|exact H]|reflexivity]. apply (plain_snoc ""); auto. repeat split.
    + destruct (Ascii.eqb c DQ) eqn:A; [discriminate|]. destruct (Ascii.eqb c ",") eqn:B.
      { apply Ascii.eqb_eq in B. subst c. apply NEXT; [exact IH|exact OK|discriminate|exact H]. }
      destruct (Ascii.eqb c LF) eqn:C.
      { apply Ascii.eqb_eq in C. subst c. injection H as <- <-. apply DONE; [exact OK|discriminate]. }
      eapply GROW; [apply IH; [|exact H]|]. { apply plain_snoc; auto. } cbn [consumed]. now rewrite str_rev_cons.
    + destruct (Ascii.eqb c DQ) eqn:A.
      { apply Ascii.eqb_eq in A. subst c. eapply GROW; [apply IH; [|exact H]; exact I|].
        cbn [consumed String.append]. reflexivity. }
      eapply GROW; [apply IH; [|exact H]; exact I|]. cbn [consumed String.append].
      rewrite str_rev_cons, doubled_app. cbn [doubled]. change quote with DQ. now rewrite A.
    + destruct (Ascii.eqb c DQ) eqn:A.
      { apply Ascii.eqb_eq in A. subst c. eapply GROW; [apply IH; [|exact H]; exact I|].
        cbn [consumed String.append]. rewrite str_rev_cons, doubled_app, sapp_assoc. reflexivity. }
      destruct (Ascii.eqb c ",") eqn:B.
      { apply Ascii.eqb_eq in B. subst c. apply NEXT; [exact IH|exact OK|discriminate|exact H]. }
      destruct (Ascii.eqb c LF) eqn:C; [|discriminate].
      apply Ascii.eqb_eq in C. subst c. injection H as <- <-. apply DONE; [exact OK|discriminate].
Qed.

(** one record at the head of a text *)
Lemma record_read s r rest : csv_record FieldStart "" [] s = inr (r, rest) <->
  exists t, record_text t r /\ ((s = t /\ rest = "") \/ s = t +s+ String LF rest).
Proof.
  split.
  - intros H. apply record_inv in H; [|reflexivity].
    destruct H as [t [v [ts [vs [tail [H1 [H2 [H3 [H4 H5]]]]]]]]]. cbn in H2, H4. subst r.
    exists (join "," (t :: ts)). split.
    { exists (t :: ts). split; [discriminate|]. split; [now constructor|reflexivity]. }
    subst s. destruct H5 as [[A [B C]]|[[A B]|[A [[B C]|B]]]]; subst.
    + left. cbn [join]. now rewrite sapp_nil_r.
    + right. now cbn [join].
    + left. destruct ts; [congruence|]. now split.
    + right. destruct ts; [congruence|].
      change (join "," (t :: s :: ts)) with (t +s+ String "," (join "," (s :: ts))). now rewrite sapp_assoc.
  - intros [t [[ts [N [F ->]]] K]]. destruct (run_record ts r F N []) as [A B].
    destruct K as [[-> ->]| ->]; [exact A|apply B].
Qed.

Lemma record_rest_shorter s r rest : csv_record FieldStart "" [] s = inr (r, rest) -> s <> "" ->
  String.length rest < String.length s.
Proof.
  intros H N. apply record_read in H as [t [_ [[-> ->]| ->]]].
  - destruct t; [contradiction|cbn; lia].
  - rewrite slen_app. cbn. lia.
Qed.
Lemma csv_skip_length s : String.length (csv_skip s) <= String.length s.
Proof. induction s as [|c s IH]; cbn; [lia|]. destruct (Ascii.eqb c LF); cbn; lia. Qed.
Lemma csv_skip_text s rs : csv_text (csv_skip s) rs -> csv_text s rs.
Proof.
  induction s as [|c s IH]; cbn; [auto|]. destruct (Ascii.eqb c LF) eqn:E; [|auto].
  apply Ascii.eqb_eq in E. subst c. intros H. apply ct_blank. now apply IH.
Qed.
Lemma nonblank_head t r : record_text t r -> t <> "" -> forall c s, t = String c s -> Ascii.eqb c LF = false.
Proof.
  intros [ts [N [F E]]] NE c s C. subst t. inversion F as [|t0 v ts' vs T F']; subst; [contradiction|].
  assert (H : exists d tl, String c s = String d tl /\ d <> LF).
  { destruct T as [t0 Q K N0|v0].
    - destruct t0 as [|d t0].
      + destruct ts' as [|t1 ts']; [cbn in C; discriminate|]. exists ","%char, (join "," (t1 :: ts')). split; [now rewrite <- C|discriminate].
      + exists d. cbn [has_char] in N0. apply orb_false_iff in N0 as [N1 _].
        assert (X : forall z, exists tl, join "," (String d t0 :: z) = String d tl) by (intros [|z1 z]; cbn; eauto).
        destruct (X ts') as [tl X']. exists tl. split; [congruence|].
        intros ->. now rewrite Ascii.eqb_refl in N1.
    - assert (X : forall z, exists tl, join "," (String quote (doubled v0 +s+ String quote "") :: z) = String quote tl) by (intros [|z1 z]; cbn; eauto).
      destruct (X ts') as [tl X']. exists quote, tl. split; [congruence|discriminate]. }
  destruct H as [d [tl [H1 H2]]]. injection H1 as -> ->. now apply Ascii.eqb_neq.
Qed.

(** ** the outcome of reading a list of records *)
Inductive rows_from : nat -> option nat -> list (list string) -> list Pkg -> option from_err -> Prop :=
| rf_nil : forall i w, rows_from i w [] [] None
| rf_width : forall i w r rs, w <> List.length r -> rows_from i (Some w) (r :: rs) [] (Some (CsvErr FieldCount))
| rf_bad : forall i w r rs e, (forall n, w = Some n -> List.length r = n) -> from_csv_record r = inl e ->
    rows_from i w (r :: rs) [] (Some (RowErr i e))
| rf_good : forall i w r rs p ps e, (forall n, w = Some n -> List.length r = n) -> csv_package r p ->
    rows_from (i + 1) (Some (List.length r)) rs ps e -> rows_from i w (r :: rs) (p :: ps) e.

Definition width (expect : nat) : option nat := if Nat.ltb 0 expect then Some expect else None.
Lemma width_len r t : record_text t r -> width (List.length r) = Some (List.length r).
Proof.
  intros [ts [N [F _]]]. inversion F; subst; [contradiction|]. reflexivity.
Qed.

Lemma loop_text s rs : csv_text s rs -> forall fuel i expect acc, String.length s < fuel ->
  exists ps e, csv_loop fuel i expect s acc = (acc ++ ps, e) /\ rows_from i (width expect) rs ps e.
Proof.
  intros T. induction T as [|s rs T IH|t r R N|t r s rs R N T IH]; intros fuel i expect acc L.
  - destruct fuel; [lia|]. exists [], None. rewrite app_nil_r. split; [reflexivity|constructor].
  - destruct fuel; [lia|]. cbn in L. destruct (IH (Datatypes.S fuel) i expect acc ltac:(lia)) as [ps [e [H1 H2]]].
    exists ps, e. split; [|exact H2]. rewrite <- H1. reflexivity.
  - destruct fuel; [lia|].
    assert (K : csv_record FieldStart "" [] t = inr (r, "")) by (apply record_read; exists t; auto).
    assert (SK : csv_skip t = t).
    { destruct t as [|c t]; [contradiction|]. cbn. now rewrite (nonblank_head _ _ R N _ _ eq_refl). }
    cbn [csv_loop]. unfold csv_read. rewrite SK. destruct t as [|c t]; [contradiction|]. rewrite K.
    assert (Z : forall fuel i ex acc, csv_loop fuel i ex "" acc = (acc, None)) by (intros [|f] ? ? ?; reflexivity).
    unfold width. destruct (Nat.ltb 0 expect) eqn:E.
    + destruct (Nat.eqb (List.length r) expect) eqn:E2.
      * apply Nat.eqb_eq in E2. destruct (from_csv_record r) as [x|p] eqn:P.
        -- exists [], (Some (RowErr i x)). rewrite app_nil_r. split; [reflexivity|].
           apply rf_bad; [|exact P]. intros n H; congruence.
        -- rewrite Z. exists [p], None. split; [reflexivity|]. apply record_package in P.
           apply rf_good; [intros n H; congruence|exact P|constructor].
      * apply Nat.eqb_neq in E2. exists [], (Some (CsvErr FieldCount)). rewrite app_nil_r. split; [reflexivity|]. constructor. congruence.
    + destruct (from_csv_record r) as [x|p] eqn:P.
      * exists [], (Some (RowErr i x)). rewrite app_nil_r. split; [reflexivity|].
        apply rf_bad; [|exact P]. intros n H; discriminate.
      * rewrite Z. exists [p], None. split; [reflexivity|]. apply record_package in P.
        apply rf_good; [intros n H; discriminate|exact P|constructor].
  - destruct fuel; [lia|]. rewrite slen_app in L. cbn in L.
    assert (K : csv_record FieldStart "" [] (t +s+ String LF s) = inr (r, s)) by (apply record_read; exists t; auto).
    assert (SK : csv_skip (t +s+ String LF s) = t +s+ String LF s).
    { destruct t as [|c t]; [contradiction|]. cbn. now rewrite (nonblank_head _ _ R N _ _ eq_refl). }
    cbn [csv_loop]. unfold csv_read. change nl with LF in *. rewrite SK.
    assert (NE : exists c u, t +s+ String LF s = String c u) by (destruct t as [|c t]; [contradiction|cbn; eauto]).
    destruct NE as [c [u NE]]. rewrite NE in K |- *. rewrite K.
    unfold width. destruct (Nat.ltb 0 expect) eqn:E.
    + destruct (Nat.eqb (List.length r) expect) eqn:E2.
      * apply Nat.eqb_eq in E2. destruct (from_csv_record r) as [x|p] eqn:P.
        -- exists [], (Some (RowErr i x)). rewrite app_nil_r. split; [reflexivity|].
           apply rf_bad; [|exact P]. intros n H; congruence.
        -- destruct (IH fuel (i + 1) expect (acc ++ [p]) ltac:(lia)) as [ps [e [H1 H2]]].
           rewrite H1. exists (p :: ps), e. split; [now rewrite <- app_assoc|]. apply record_package in P.
           apply rf_good; [intros n H; congruence|exact P|]. unfold width in H2. rewrite E in H2. now rewrite E2.
      * apply Nat.eqb_neq in E2. exists [], (Some (CsvErr FieldCount)). rewrite app_nil_r. split; [reflexivity|]. constructor. congruence.
    + destruct (from_csv_record r) as [x|p] eqn:P.
      * exists [], (Some (RowErr i x)). rewrite app_nil_r. split; [reflexivity|].
        apply rf_bad; [|exact P]. intros n H; discriminate.
      * destruct (IH fuel (i + 1) (List.length r) (acc ++ [p]) ltac:(lia)) as [ps [e [H1 H2]]].
        rewrite H1. exists (p :: ps), e. split; [now rewrite <- app_assoc|]. apply record_package in P.
        apply rf_good; [intros n H; discriminate|exact P|]. now rewrite (width_len _ _ R) in H2.
Qed.

(** reading without an error only happens on texts of the grammar *)
Lemma loop_grammar fuel : forall i expect s acc ps, String.length s < fuel ->
  csv_loop fuel i expect s acc = (ps, None) -> exists rs, csv_text s rs.
Proof.
  induction fuel as [|fuel IH]; intros i expect s acc ps L H; [lia|].
  cbn [csv_loop] in H. unfold csv_read in H. pose proof (csv_skip_length s) as SL.
  assert (G : exists rs, csv_text (csv_skip s) rs); [|destruct G as [rs G]; exists rs; now apply csv_skip_text].
  assert (K : forall e x r rest, csv_record FieldStart "" [] (csv_skip s) = inr (r, rest) ->
    csv_skip s <> "" -> csv_loop fuel (i + 1) e rest x = (ps, None) -> exists rs, csv_text (csv_skip s) rs).
  { intros e x r rest R NE Q. pose proof (record_rest_shorter _ _ _ R NE) as SR.
    apply IH in Q; [|lia]. destruct Q as [rs Q].
    apply record_read in R as [t [RT [[E1 E2]|E1]]].
    - exists [r]. rewrite E1 in NE |- *. now apply ct_last.
    - destruct t as [|c t].
      + (* an empty first line cannot remain after skipping *)
        exfalso. cbn in E1. clear -E1. revert E1. induction s as [|d s IHs]; cbn; [discriminate|].
        destruct (Ascii.eqb d LF) eqn:X; [exact IHs|]. intros H. injection H as -> ->. rewrite Ascii.eqb_refl in X. discriminate.
      + exists (r :: rs). rewrite E1. apply ct_record; [exact RT|discriminate|exact Q]. }
  destruct (csv_skip s) as [|c s1] eqn:SK; [exists []; constructor|].
  destruct (csv_record FieldStart "" [] (String c s1)) as [e|[r rest]] eqn:R; [discriminate|].
  destruct (Nat.ltb 0 expect).
  - destruct (Nat.eqb _ expect); [|discriminate]. destruct (from_csv_record r); [discriminate|].
    eapply K; [reflexivity|discriminate|exact H].
  - destruct (from_csv_record r); [discriminate|]. eapply K; [reflexivity|discriminate|exact H].
Qed.

(** ** declarative outcome *)
Lemma rows_ok i w rs ps : rows_from i w rs ps None ->
  Forall2 csv_package rs ps /\ exists n, (forall k, w = Some k -> rs <> [] -> k = n) /\ Forall (fun r => List.length r = n) rs.
Proof.
  intros H. remember None as e eqn:E. induction H as [i w|i w r rs N|i w r rs e N B|i w r rs p ps e N P R IH]; try discriminate.
  - split; [constructor|]. destruct w as [k|].
    + exists k. split; [intros ? H _; congruence|constructor].
    + exists 0. split; [discriminate|constructor].
  - destruct (IH E) as [F [n [H1 H2]]]. split; [now constructor|]. exists (List.length r). split.
    + intros k K _. symmetry. now apply N.
    + constructor; [reflexivity|]. destruct rs as [|r2 rs]; [constructor|].
      specialize (H1 _ eq_refl ltac:(discriminate)). now rewrite H1.
Qed.
Lemma rows_err i w rs ps e : rows_from i w rs ps (Some e) ->
  exists good r rest n, rs = good ++ r :: rest /\ Forall2 csv_package good ps
    /\ (forall k, w = Some k -> k = n) /\ Forall (fun r => List.length r = n) good
    /\ ((List.length r <> n /\ (good <> [] \/ w <> None) /\ e = CsvErr FieldCount)
        \/ (List.length r = n /\ exists x, bad_record r x /\ e = RowErr (i + List.length good) x)).
Proof.
  intros H. remember (Some e) as oe eqn:E. revert e E.
  induction H as [i w|i w r rs N|i w r rs x N B|i w r rs p ps oe N P R IH]; intros e E; try discriminate.
  - injection E as <-. exists [], r, rs, w. split; [reflexivity|]. split; [constructor|]. split; [intros; congruence|].
    split; [constructor|]. left. split; [congruence|]. split; [right; discriminate|reflexivity].
  - injection E as <-. exists [], r, rs, (List.length r). split; [reflexivity|]. split; [constructor|].
    split; [intros k K; symmetry; now apply N|]. split; [constructor|]. right. split; [reflexivity|].
    exists x. cbn. rewrite Nat.add_0_r. split; [now apply record_bad|reflexivity].
  - destruct (IH e E) as [good [b [rest [n [H1 [H2 [H3 [H4 H5]]]]]]]].
    assert (n = List.length r) by (symmetry; now apply H3). subst n.
    exists (r :: good), b, rest, (List.length r). split; [now rewrite H1|]. split; [now constructor|].
    split; [intros k K; symmetry; now apply N|]. split; [now constructor|].
    destruct H5 as [[A [_ B]]|[A [x [B C]]]].
    + left. split; [exact A|]. split; [left; discriminate|exact B].
    + right. split; [exact A|]. exists x. split; [exact B|]. rewrite C. cbn [List.length]. f_equal. lia.
Qed.

Lemma from_csv_text S text rs : SorterOk S -> csv_text (csv_normalise text) rs ->
  (exists ps ps', from_csv S text = (ps', None) /\ all_packages rs ps /\ sorted_packages ps ps')
  \/ (exists ps e, from_csv S text = (ps, Some e) /\ first_bad_row rs ps e).
Proof.
  intros HS T. destruct (loop_text _ _ T (Datatypes.S (String.length (csv_normalise text))) 1 0 [] ltac:(lia)) as [ps [e [H1 H2]]].
  unfold from_csv. rewrite H1. cbn [app]. destruct e as [e|].
  - right. exists ps, e. split; [reflexivity|]. apply rows_err in H2 as [good [r [rest [n [A [B [_ [C D]]]]]]]].
    exists good, r, rest. split; [exact A|]. split; [split; [now exists n|exact B]|].
    destruct D as [[D [G E]]|[D [x [E F]]]].
    + left. split; [|exact E]. destruct G as [G|G]; [|now contradiction G].
      intros [k K]. apply Forall_app in K as [K1 K2]. inversion K2; subst.
      destruct good as [|g good]; [contradiction|]. inversion K1; inversion C; subst. congruence.
    + right. split.
      * exists n. apply Forall_app. split; [exact C|]. now constructor.
      * exists x. split; [exact E|]. rewrite F. f_equal. lia.
  - left. exists ps, (S _ pkg_less ps). split; [reflexivity|]. apply rows_ok in H2 as [A [n [_ B]]].
    split; [split; [now exists n|exact A]|]. now apply sort_packages.
Qed.
Lemma from_csv_malformed S text : ~ (exists rs, csv_text (csv_normalise text) rs) ->
  exists ps e, from_csv S text = (ps, Some e).
Proof.
  intros N. unfold from_csv. destruct (csv_loop _ 1 0 (csv_normalise text) []) as [ps [e|]] eqn:H; [eauto|].
  exfalso. apply N. eapply loop_grammar; [|exact H]. lia.
Qed.

(** ** line ends *)
Lemma normalise_id s : has_char CR s = false -> csv_normalise s = s.
Proof.
  induction s as [|c s IH]; cbn [has_char csv_normalise]; [reflexivity|]. intros H. apply orb_false_iff in H as [A B].
  rewrite Ascii.eqb_sym, A. now rewrite IH.
Qed.
Lemma normalise_crlf s : has_char CR s = false -> csv_normalise (crlf s) = s.
Proof.
  induction s as [|c s IH]; cbn [has_char crlf]; [reflexivity|]. intros H. apply orb_false_iff in H as [A B].
  rewrite Ascii.eqb_sym in A. destruct (Ascii.eqb c nl) eqn:E.
  - apply Ascii.eqb_eq in E. subst c. cbn [csv_normalise]. cbn. now rewrite IH.
  - cbn [csv_normalise]. rewrite A. now rewrite IH.
Qed.

(** ** rows given on the command line *)
Lemma split_record r : simple_row r -> record_text r (split_char "," r).
Proof.
  intros [Q [_ N]]. exists (split_char "," r). split.
  { destruct (split_char_cons "," r) as [h [t E]]. rewrite E. discriminate. }
  split; [|symmetry; apply join_split_char].
  assert (K : forall c, has_char c r = false -> Forall (fun x => has_char c x = false) (split_char "," r)).
  { clear. intros c. induction r as [|d r IH]; cbn [has_char split_char]; intros H; [repeat constructor|].
    apply orb_false_iff in H as [A B]. specialize (IH B). destruct (Ascii.eqb "," d); [now constructor|].
    destruct (split_char "," r) as [|h t]; [constructor; [cbn; now rewrite A|constructor]|].
    inversion IH; subst. constructor; [|assumption]. cbn. now rewrite A. }
  pose proof (K _ Q) as K1. pose proof (K _ N) as K2. pose proof (split_char_pieces "," r) as K3.
  revert K1 K2 K3. generalize (split_char "," r). intros l K1 K2 K3.
  induction l as [|x l IH]; constructor; inversion K1; inversion K2; inversion K3; subst; [now apply ft_plain|now apply IH].
Qed.
Lemma rows_text rows : Forall simple_row rows ->
  csv_text (join newline rows) (map (split_char ",") (filter nonblank rows)).
Proof.
  induction 1 as [|r rows H F IH]; [constructor|]. cbn [filter]. unfold nonblank at 1.
  destruct rows as [|r2 rows].
  - cbn [join filter]. destruct (seqb_spec r "") as [->|N]; cbn [negb map]; [constructor|].
    apply ct_last; [now apply split_record|exact N].
  - change (join newline (r :: r2 :: rows)) with (r +s+ String nl (join newline (r2 :: rows))).
    destruct (seqb_spec r "") as [->|N]; cbn [negb map].
    + now apply ct_blank.
    + apply ct_record; [now apply split_record|exact N|exact IH].
Qed.
Lemma rows_no_cr rows : Forall simple_row rows -> has_char CR (join newline rows) = false.
Proof.
  induction 1 as [|r rows [_ [H _]] F IH]; [reflexivity|]. destruct rows as [|r2 rows]; [exact H|].
  change (join newline (r :: r2 :: rows)) with (r +s+ newline +s+ join newline (r2 :: rows)).
  change CR with cr in *. rewrite !has_char_app, H, IH. reflexivity.
Qed.
Lemma from_rows S path parse_as rows : SorterOk S -> Forall simple_row rows ->
  let recs := map (split_char ",") (filter nonblank rows) in
  exists ps e, from_csv_rows S path parse_as rows = (mkLF path parse_as ps, e)
    /\ ((e = None /\ exists ps0, all_packages recs ps0 /\ sorted_packages ps0 ps)
        \/ exists x, e = Some x /\ first_bad_row recs ps x).
Proof.
  intros HS F recs. pose proof (rows_text rows F) as T.
  rewrite <- (normalise_id _ (rows_no_cr rows F)) in T.
  unfold from_csv_rows. destruct (from_csv_text S _ _ HS T) as [[ps [ps' [H [A B]]]]|[ps [e [H A]]]]; rewrite H.
  - exists ps', None. split; [reflexivity|]. left. eauto.
  - exists ps, (Some e). split; [reflexivity|]. right. eauto.
Qed.
Lemma from_file S path parse_as text :
  from_csv_file S (Some text) path parse_as
  = (mkLF path parse_as (fst (from_csv S text)), option_map (InFile path) (snd (from_csv S text))).
Proof. unfold from_csv_file. now destruct (from_csv S text). Qed.

Lemma written_text rs : Forall (fun r => r <> []) rs -> csv_text (write_csv rs) rs.
Proof.
  assert (W : forall r, r <> [] -> record_text (write_row r) r /\ write_row r <> "").
  { intros r N. split.
    - exists (map quoted r). split; [destruct r; [contradiction|discriminate]|]. split; [|reflexivity].
      clear. induction r; constructor; [apply ft_quoted|assumption].
    - destruct r as [|f [|g r]]; [contradiction|discriminate|discriminate]. }
  unfold write_csv. induction 1 as [|r rs N F IH]; [constructor|]. destruct (W r N) as [W1 W2].
  destruct rs as [|r2 rs]; cbn [map join]; [now apply ct_last|].
  change (String nl "" +s+ ?x) with (String nl x). now apply ct_record.
Qed.

Lemma from_csv_input S t input rs : SorterOk S -> has_char cr t = false -> input = t \/ input = crlf t -> csv_text t rs ->
  (exists ps ps', from_csv S input = (ps', None) /\ all_packages rs ps /\ sorted_packages ps ps')
  \/ (exists ps e, from_csv S input = (ps, Some e) /\ first_bad_row rs ps e).
Proof.
  intros HS C I T. apply from_csv_text; [exact HS|].
  assert (E : csv_normalise input = t) by (destruct I; subst input; [now apply normalise_id|now apply normalise_crlf]).
  now rewrite E.
Qed.
Lemma from_csv_bad_input S t input : has_char cr t = false -> input = t \/ input = crlf t ->
  ~ (exists rs, csv_text t rs) -> exists ps e, from_csv S input = (ps, Some e).
Proof.
  intros C I T. apply from_csv_malformed.
  assert (E : csv_normalise input = t) by (destruct I; subst input; [now apply normalise_id|now apply normalise_crlf]).
  now rewrite E.
Qed.
Lemma open_failure S path parse_as : from_csv_file S None path parse_as = (empty_lockfile, Some (CannotOpen path)).
Proof. reflexivity. Qed.
Lemma csv_read_back S rs : SorterOk S -> Forall (fun r => r <> []) rs ->
  has_char cr (write_csv rs) = false ->
  (exists ps ps', from_csv S (write_csv rs) = (ps', None) /\ all_packages rs ps /\ sorted_packages ps ps')
  \/ (exists ps e, from_csv S (write_csv rs) = (ps, Some e) /\ first_bad_row rs ps e).
Proof. intros HS N C. eapply from_csv_input; eauto. now apply written_text. Qed.
