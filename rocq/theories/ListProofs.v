From Verif Require Import GoStr GoStrFacts GoSort GoSortFacts Types Osv OsvSpec MemDB MemDBSpec MemDBProofs Path PathFacts Api ZipDB DirDB DbConfig Configer ConfigSpec ConfigProofs GoMap Lockfile LockfileSpec LockfileProofs Csv Ecosystems Report ReportSpec ReportProofs Json Main MainSpec MainTrace MainProofs DiscoverProofs Surface RunProofs RunFacts.
(** What --list-packages does. *)
Section List.
Variable E : Env.
Variable O : Opts.
Hypothesis SO : SorterOk (e_sort E).

(** ** --list-packages *)
Definition noerr (a b : St) : Prop := s_errored b = s_errored a /\ s_results b = s_results a.
Lemma noerr_refl s : noerr s s. Proof. split; reflexivity. Qed.
Lemma noerr_trans a b c : noerr a b -> noerr b c -> noerr a c. Proof. unfold noerr. intuition congruence. Qed.
Ltac nn := repeat match goal with
  | |- keeps _ (bind _ _) => apply (keeps_bind _ noerr_trans); [|intros ?]
  | |- keeps _ (ret _) => apply keeps_ret, noerr_refl
  | |- keeps _ (lift _) => apply keeps_lift, noerr_refl
  | |- keeps _ (get _) => apply keeps_get, noerr_refl
  | |- keeps _ (print_text _ _) => intros ?; split; reflexivity
  | |- keeps _ (emit _) => intros ?; split; reflexivity
  | |- keeps _ (set_heap _) => intros ?; split; reflexivity
  | |- keeps _ (set_dbs _) => intros ?; split; reflexivity
  | |- keeps _ (each _ _) => apply (keeps_each _ noerr_refl noerr_trans); intros ? ?
  | |- keeps _ (if ?b then _ else _) => destruct b
  | |- keeps _ (match ?b with _ => _ end) => destruct b
  | H : keeps _ ?m |- keeps _ ?m => exact H
  end.
Lemma read_all_noerr paths : forall cfg, keeps noerr (read_all E O paths false cfg).
Proof. induction paths as [|p ps IH]; intros cfg; cbn [read_all]; unfold load_at, alloc; nn; apply IH. Qed.
Lemma check_files_list_errored files : o_list_pkgs O = true -> forall k exit seen s x s', check_files E O files k exit seen s = (Ok x, s') ->
  snd x = seen /\ s_errored s' = s_errored s || existsb (fun f => match l_err f with None => false | _ => true end) files.
Proof.
  intros L. induction files as [|f fs IH]; intros k exit seen s x s' H; cbn [check_files] in H.
  - injection H as <- <-. split; [reflexivity|]. cbn. now rewrite orb_false_r.
  - step H u0 s0 H0. assert (N0 : noerr s s0) by (eapply keeps_at; [|exact H0]; nn). cbn [existsb]. destruct (l_err f) as [e|].
    + step H u1 s1 H1. apply IH in H as [A B]. split; [exact A|]. rewrite B. injection H1 as _ <-. cbn. now rewrite orb_true_r.
    + step H h s1 H1. injection H1 as <- <-. step H u1 s1 H1. assert (N1 : noerr s0 s1) by (eapply keeps_at; [|exact H1]; nn).
      step H u2 s2 H2. assert (N2 : noerr s1 s2) by (eapply keeps_at; [|exact H2]; nn). rewrite L in H. step H u3 s3 H3. apply IH in H as [A B].
      assert (N3 : s_errored s3 = s_errored s2) by (unfold print_result, add_result, emit in H3; destruct (o_json O); injection H3 as _ <-; reflexivity).
      split; [exact A|]. rewrite B, N3. destruct N0, N1, N2. cbn [orb]. congruence.
Qed.
Lemma write_none s : IterOk (e_iter E) -> write_updated_configs E O [] s = (Ok tt, s).
Proof.
  intros IT. unfold write_updated_configs. cbn [List.length Nat.eqb negb]. replace (e_iter E _ (@nil (string * list string))) with (@nil (string * list string)) by (symmetry; apply Permutation_nil, IT).
  cbn [update_all]. unfold bind, ret. cbn.
  assert (e_sort E _ str_ltb [] = []). { apply Permutation_nil. apply sorter_perm. exact SO. } rewrite H. reflexivity.
Qed.
Lemma find_all_exact s l e s' : find_all_lockfiles E O s = (Ok (l, e), s') -> s_errored s' = s_errored s || e.
Proof.
  unfold find_all_lockfiles. destruct (seqb (o_parse_as O) parse_as_csv_row); [intros H; injection H as _ <- <-; now rewrite orb_false_r|].
  revert s l e s'. induction (o_args O) as [|p ps IH]; intros s l e s' H; cbn [find_all_loop] in H; [injection H as _ <- <-; now rewrite orb_false_r|].
  destruct (split_parse_as p) as [a path]. step H x s1 H1. step H y s2 H2. injection H as _ <- <-. destruct y as [l2 b2]. apply IH in H2. rewrite H2.
  assert (s_errored s1 = s_errored s || snd x) as ->.
  { unfold find_lockfiles in H1. destruct (e_stat E path); cbn in H1; injection H1 as <- <-; cbn; now rewrite ?orb_false_r, ?orb_true_r. }
  cbn. now rewrite orb_assoc.
Qed.
Definition reading_lock (r : reading) : option Lockfile := match r with Usable l _ => Some l | Unusable => None end.
Lemma reads_listed fs l rs : Forall2 (reads E O fs (Same empty_config)) (map as_arg l) rs -> listed_as E O l (map reading_lock rs).
Proof.
  revert rs. induction l as [|q l IH]; intros rs F; inversion F as [|p r ps rs' R F']; subst; [constructor|]. apply IH in F'.
  inversion R as [C|c lf e C Pl|c lf C Pl]; subst; cbn [map reading_lock].
  - inversion C.
  - eapply la_bad; eauto.
  - eapply la_good; eauto.
Qed.
Lemma goods_given h files rs : Forall2 (file_of h) files rs -> map (fun f => RLock (l_lock f)) (goods files) = map RLock (given (map reading_lock rs)).
Proof.
  unfold goods, given. induction 1 as [|f r files rs H F IH]; [reflexivity|]. cbn [filter map flat_map]. destruct r as [|l c]; cbn in H.
  - destruct (l_err f); [|contradiction]. exact IH.
  - destruct H as (E1 & E2 & _). rewrite E1. cbn. now rewrite E2, IH.
Qed.
Lemma none_unusable rs : In None (map reading_lock rs) <-> In Unusable rs.
Proof.
  rewrite in_map_iff. split; [intros ([|l c] & Q & X); [exact X|discriminate]|]. intros X. exists Unusable. auto.
Qed.
Lemma run_files_lists l cfg s code s' : IterOk (e_iter E) -> o_list_pkgs O = true -> run_files E O (map as_arg l) false cfg s = (Ok code, s') ->
  nth cfg (s_heap s) empty_config = empty_config -> cfg < List.length (s_heap s) ->
  exists rs n, listed_as E O l rs /\ shows E O (map RLock (given rs)) s s' n
    /\ code = (if s_errored s' then 127%Z else 0%Z) /\ (s_errored s' = true <-> s_errored s = true \/ In None rs).
Proof.
  intros IT L H HC HC'. unfold run_files in H.
  step H lfs s1 H1. pose proof (keeps_at _ _ _ _ _ (read_all_noerr _ _) H1) as N1.
  pose proof (keeps_at _ _ _ _ _ (P_read_all E O _ _ _) H1) as P1. apply (plainly_shows E O) in P1 as (n1 & Q1 & C1).
  apply (read_all_spec E O (Same empty_config)) in H1; [|intros c Q; injection Q as <-; auto]. destruct H1 as (_ & _ & (rs & RD & FO) & _).
  step H u s2 H2. assert (N2 : noerr s1 s2) by (eapply keeps_at; [|exact H2]; unfold adjust_all, adjust_one; nn).
  apply (keeps_at _ _ _ _ _ (P_adjust E O _)), (plainly_shows E O) in H2 as (n2 & Q2 & C2).
  step H h s3 H3. injection H3 as <- <-. unfold load_databases in H. rewrite L in H. step H x s3 H3. injection H3 as <- <-.
  step H u4 s4 H4. injection H4 as _ <-. set (s4 := mkSt _ _ _ _ _ _ _) in H.
  step H y s5 H5. pose proof H5 as H5'. apply (check_files_lists E O _ L) in H5 as (X & n5 & Q5).
  apply check_files_list_errored in H5' as [SN ER]; [|exact L].
  step H u6 s6 H6. rewrite SN in H6. assert (s6 = s5) as -> by (destruct (o_update O); [rewrite write_none in H6 by exact IT|]; injection H6 as _ <-; reflexivity).
  step H er s7 H7. injection H7 as <- <-. injection H as <- <-.
  exists (map reading_lock rs), (n1 ++ n2 ++ n5). split; [now apply (reads_listed (s_files s))|]. split; [|split].
  - rewrite (goods_given _ _ _ FO) in Q5.
    assert (Q4 : shows E O [] s2 s4 []) by (unfold shows, texts; cbn; rewrite app_nil_r; destruct (o_json O); now rewrite app_nil_r).
    exact (shows_trans E O _ _ _ _ _ _ _ Q1 (shows_trans E O _ _ _ _ _ _ _ Q2 (shows_trans E O _ _ _ _ _ _ _ Q4 Q5))).
  - rewrite X. rewrite ER. destruct (existsb _ lfs); cbn; [now rewrite orb_true_r|]. now rewrite orb_false_r, andb_true_r.
  - rewrite ER, orb_true_iff, (unusable_exists _ _ _ FO), none_unusable. cbn [s_errored s4]. destruct N2 as [-> _], N1 as [-> _]. reflexivity.
Qed.
Lemma doc_shown tr s1 rs n : shows E O rs (start (s_files s1) (s_cache s1)) s1 n -> tr = s_trace s1 ++ doc_of E O s1 -> shown E O tr rs.
Proof.
  intros (Q1 & Q2 & Q3 & Q4) ->. cbn in Q1, Q4. unfold shown. rewrite !messages_app, Q1, Q2, Q3. unfold texts, doc_of. rewrite Q4.
  destruct (o_json O); cbn; rewrite ?app_nil_r; auto.
Qed.
Hypothesis IT : IterOk (e_iter E).
Hypothesis EO : EntriesOk E.
Lemma plain_shown tr s1 fs cache : plainly (start fs cache) s1 -> tr = s_trace s1 ++ doc_of E O s1 -> shown E O tr [].
Proof.
  intros P ->. apply (plainly_shows E O) in P as (n & (Q1 & Q2 & Q3 & Q4) & _). cbn in Q1, Q4. unfold shown. rewrite !messages_app, Q1, Q2, Q3. unfold texts, doc_of. rewrite Q4.
  destruct (o_json O); cbn; auto.
Qed.
Lemma run_list fs cache code s' : listing O -> run E O (start fs cache) = (Ok code, s') -> list_outcome E O (s_trace s') code.
Proof.
  intros (C1 & C2 & C3) H. apply run_trace in H as (s1 & H & T & _). set (tr := s_trace s') in *.
  assert (ER : s_errored s1 = true <-> messages KErr tr <> []).
  { assert (G : grows (fun _ => True) (start fs cache) (snd (run_body E O (start fs cache)))) by (apply run_body_grows; auto).
    rewrite H in G. destruct G as [n T' _ Er]. cbn in T', Er. rewrite T, messages_app, doc_errors, app_nil_r, T', <- err_messages, Er. reflexivity. }
  unfold run_body in H. rewrite C1, C2 in H.
  pose proof (known_as_iff (o_parse_as O)) as KA. destruct (known_parse_as (o_parse_as O)); cbn [negb] in H.
  2:{ assert (P : plainly (start fs cache) s1) by (eapply keeps_at; [|exact H]; pp).
      assert (EE : messages KErr tr <> []).
      { apply ER. step H u0 s0 H0. eapply then_errored; [|exact H|eapply error_sets; exact H0]. mm. }
      assert (code = 127%Z) as -> by (do 4 (let a := fresh in let b := fresh in let c := fresh in step H a b c); now injection H as <- _).
      apply lo_parser; [intros Q; apply KA in Q; discriminate|exact EE|]. eapply plain_shown; eauto. }
  assert (KN : known_as (o_parse_as O)) by now apply KA.
  step H x s2 Hf. pose proof (keeps_at _ _ _ _ _ (P_find_all E O) Hf) as P1.
  assert (IN : exists l e, inputs E O l e /\ x = (map as_arg l, e)).
  { destruct (string_dec (o_parse_as O) "csv-row") as [Q|Q].
    - exists [("csv-row", "-")], false. split; [now apply in_rows|]. unfold find_all_lockfiles, parse_as_csv_row in Hf. rewrite Q in Hf. cbn in Hf. now injection Hf as <- _.
    - destruct (find_all_spec E O SO EO (start fs cache) Q) as (l & e & s3 & F1 & F2 & _). rewrite F1 in Hf. injection Hf as <- _.
      exists l, e. split; [now apply in_found|reflexivity]. }
  destruct IN as (l & e & IN & ->). apply find_all_exact in Hf. cbn [start s_errored orb] in Hf. cbn [fst snd] in H. rewrite map_length in H.
  destruct l as [|q l].
  { cbn [List.length Nat.eqb] in H.
    assert (P : plainly (start fs cache) s1) by (eapply plainly_trans; [exact P1|]; eapply keeps_at; [|exact H]; pp).
    assert (EE : messages KErr tr <> []) by (apply ER; injection H as _ <-; reflexivity).
    assert (code = (if Nat.ltb 0 (List.length (o_args O)) && negb e then 128 else 127)%Z) as -> by (injection H as <- _; reflexivity).
    replace (Nat.ltb 0 (List.length (o_args O)) && negb e) with (negb e && negb (Nat.eqb (List.length (o_args O)) 0)) by (destruct (o_args O), e; reflexivity).
    apply lo_nothing; auto. eapply plain_shown; eauto. }
  cbn [List.length Nat.eqb] in H. unfold run_config in H. rewrite C3 in H. step H cfg s3 Ha. unfold alloc in Ha. injection Ha as <- <-.
  apply run_files_lists in H as (rs & n & LA & SH & CD & EX); auto.
  2:{ cbn. now rewrite nth_middle. }
  2:{ cbn. rewrite app_length. cbn. lia. }
  cbn [s_errored] in EX. rewrite Hf in EX.
  eapply lo_files with (rs := rs); eauto; [discriminate| | |].
  - apply (plainly_shows E O) in P1 as (n0 & (A1 & A2 & A3 & A4) & _). destruct SH as (B1 & B2 & B3 & B4). cbn in A1, A4, B1, B4.
    unfold shown. rewrite T. rewrite !messages_app, B1, !messages_app, A1, A2, A3, B2, B3. unfold texts, doc_of in *. rewrite B4, A4. destruct (o_json O); cbn; rewrite ?app_nil_r; auto.
  - destruct (s_errored s1).
    + left. split; [exact CD|]. now apply ER.
    + right. split; [exact CD|]. destruct (messages KErr tr); [reflexivity|]. exfalso. assert (false = true) by (apply ER; discriminate). discriminate.
  - rewrite <- ER. exact EX.
Qed.
End List.
