(** Keys of objects are compared with the names of fields as JsonSpec.v says. *)
From Verif Require Import GoStr GoStrFacts Json JsonSpec JsonUtf8.

Lemma is_upper_iff c : is_upper c = true <-> exists d, lower_case c d.
Proof.
  unfold is_upper, lower_case, byte. split.
  - intros H. apply andb_prop in H as [H1 H2]. apply N.leb_le in H1, H2. exists (ascii_of_N (N_of_ascii c + 32)), (N_of_ascii c). rewrite N_ascii_embedding by lia. repeat split; lia.
  - intros (d & n & <- & _ & H). apply andb_true_intro. split; apply N.leb_le; lia.
Qed.
Lemma lower_case_char c d : lower_case c d -> lower_char c = d.
Proof.
  intros L. unfold lower_char. rewrite (proj2 (is_upper_iff c)) by eauto. destruct L as (n & <- & E & _). rewrite <- (ascii_N_embedding d), E. reflexivity.
Qed.
Lemma fold_ascii c s : (N_of_ascii c < 128)%N -> fold_key (String c s) = String (lower_char c) (fold_key s).
Proof.
  intros H. assert (H1 : Ascii.eqb c "197" = false) by (destruct (Ascii.eqb_spec c "197"); [subst; exfalso; revert H; vm_compute; discriminate|reflexivity]).
  assert (H2 : Ascii.eqb c "226" = false) by (destruct (Ascii.eqb_spec c "226"); [subst; exfalso; revert H; vm_compute; discriminate|reflexivity]).
  destruct s as [|d [|e s]]; cbn [fold_key andb]; rewrite ?H1, ?H2; reflexivity.
Qed.
Lemma char_ind (P : string -> Prop) : P "" -> (forall c s, (forall t, (String.length t <= String.length s)%nat -> P t) -> P (String c s)) -> forall s, P s.
Proof.
  intros H0 H1 s. assert (G : forall n t, (String.length t <= n)%nat -> P t).
  { induction n as [|n IH]; intros [|c t] L; cbn in L; auto; try lia. apply H1. intros u U. apply IH. lia. }
  now apply (G (String.length s)).
Qed.
Theorem keys_iff f k : field_name f -> (fold_key k = f <-> spells k f).
Proof.
  intros F. split.
  - revert f F. induction k as [|c k IH] using char_ind; intros f F E; [subst; constructor|].
    assert (L : String (lower_char c) (fold_key k) = f -> spells (String c k) f).
    { intros <-. destruct F as (U & B & F). destruct (is_upper c) eqn:K.
      - apply is_upper_iff in K as [d K]. rewrite (lower_case_char _ _ K). apply sl_upper; [exact K|]. apply (IH k); auto.
      - replace (lower_char c) with c by (unfold lower_char; now rewrite K). apply sl_same, (IH k); auto. }
    destruct k as [|d k]; [exact (L E)|]. cbn [fold_key] in E. destruct (Ascii.eqb c "197" && Ascii.eqb d "191") eqn:Q.
    { apply andb_prop in Q as [Q1 Q2]. apply Ascii.eqb_eq in Q1, Q2. subst c d f. destruct F as (_ & _ & F).
      apply (sl_long_s (String "197" (String "191" ""))); [apply (utf8_encodes 0x17F); lia|]. apply (IH k); auto. cbn; lia. }
    destruct k as [|e k]; [exact (L E)|]. destruct (Ascii.eqb c "226" && Ascii.eqb d "132" && Ascii.eqb e "170") eqn:Q'; [|exact (L E)].
    apply andb_prop in Q' as [Q' Q3]. apply andb_prop in Q' as [Q1 Q2]. apply Ascii.eqb_eq in Q1, Q2, Q3. subst c d e f. destruct F as (_ & _ & F).
    apply (sl_kelvin (String "226" (String "132" (String "170" "")))); [apply (utf8_encodes 0x212A); lia|]. apply (IH k); auto. cbn; lia.
  - intros S. revert F. induction S as [|c k f S IH|c d k f L S IH|s k f E S IH|s k f E S IH]; intros F; [reflexivity| | | |]; destruct F as (U & B & F); specialize (IH F).
    + rewrite fold_ascii, IH by exact B. f_equal. unfold lower_char. destruct (is_upper c) eqn:K; [|reflexivity]. apply is_upper_iff in K as [d K]. now apply U in K.
    + rewrite fold_ascii, IH by (destruct L as (n & <- & _ & ?); lia). now rewrite (lower_case_char _ _ L).
    + apply encodes_utf8 in E. subst s. cbn. now rewrite IH.
    + apply encodes_utf8 in E. subst s. cbn. now rewrite IH.
Qed.
