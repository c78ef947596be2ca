From Verif Require Import GoStr GoStrFacts GoSort GoSortFacts Types Json Osv MemDB Path Api ZipDB DirDB DbConfig Configer GoMap Lockfile Csv Ecosystems Report Main MainSpec RetoldSpec RetoldProofs.

(** ** with and without --json *)
Record jrel (E : Env) (s s' : St) : Prop := mkJrel {
  j_trace : s_trace s' = flat_map as_json (s_trace s);
  j_res : messages KRes (s_trace s) = map (result_string (e_col E)) (s_results s');
  j_err : s_errored s = s_errored s';
  j_heap : s_heap s = s_heap s';
  j_dbs : s_dbs s = s_dbs s';
  j_files : s_files s = s_files s';
  j_cache : s_cache s = s_cache s' }.
Lemma messages_snoc k l e : messages k (l ++ [e]) = messages k l ++ messages k [e].
Proof. unfold messages. now rewrite flat_map_app. Qed.
Lemma as_json_snoc l e : flat_map as_json (l ++ [e]) = flat_map as_json l ++ as_json e.
Proof. rewrite flat_map_app. cbn. now rewrite app_nil_r. Qed.
Lemma retold_self E : retold E (e_col E) (e_text E) (e_osv_json E) (e_version_line E) = E.
Proof. now destruct E. Qed.
Lemma json_body E O : o_json O = false -> jr (jrel E) eq (run_body E O) (run_body E (with_json O true)).
Proof.
  intros J. rewrite <- (retold_self E) at 3. apply (jr_body E (e_col E) (e_text E) (e_osv_json E) (e_version_line E) O true (jrel E) eq).
  - intros t t' H. apply H. auto.
  - intros t t' <- s s' []. cbn. split; [reflexivity|]. constructor; cbn [s_trace s_results s_errored s_heap s_dbs s_files s_cache]; auto; [rewrite as_json_snoc, j_trace0; reflexivity|rewrite messages_snoc, j_res0; apply app_nil_r].
  - intros t t' <- s s' []. unfold print_text. rewrite J. cbn. split; [reflexivity|]. constructor; cbn [s_trace s_results s_errored s_heap s_dbs s_files s_cache]; auto; [rewrite as_json_snoc, j_trace0; reflexivity|rewrite messages_snoc, j_res0; apply app_nil_r].
  - intros r s s' []. unfold print_result. rewrite J. cbn. split; [reflexivity|]. constructor; cbn [s_trace s_results s_errored s_heap s_dbs s_files s_cache]; auto.
    + rewrite as_json_snoc, j_trace0. cbn. now rewrite app_nil_r.
    + rewrite messages_snoc, j_res0, map_app. reflexivity.
  - intros e H s s' []. cbn. split; [reflexivity|]. constructor; cbn [s_trace s_results s_errored s_heap s_dbs s_files s_cache]; auto.
    + rewrite as_json_snoc, j_trace0. f_equal. destruct e as [k st t| | | | | | |]; try reflexivity. now destruct (H k st t).
    + rewrite messages_snoc, j_res0. destruct e as [k st t| | | | | | |]; try apply app_nil_r. now destruct (H k st t).
  - intros s s' L. cbn. split; [apply L|exact L].
  - intros s s' L. cbn. split; [apply L|exact L].
  - intros s s' L. cbn. split; [apply L|exact L].
  - intros s s' L. cbn. split; [apply L|exact L].
  - intros s s' L. cbn. split; [apply L|exact L].
  - intros h s s' []. cbn. split; [reflexivity|]. now constructor.
  - intros h s s' []. cbn. split; [reflexivity|]. now constructor.
  - intros h s s' []. cbn. split; [reflexivity|]. now constructor.
  - intros h s s' []. cbn. split; [reflexivity|]. now constructor.
  - intros l l' H. assert (Q : l = l') by (induction H as [|a b l l' [Q _] _ ->]; congruence). subst l'. apply jr_each. intros a.
    destruct (has_prefix a "Error updating").
    + intros s s' []. cbn. split; [reflexivity|]. constructor; cbn [s_trace s_results s_errored s_heap s_dbs s_files s_cache]; auto; [rewrite as_json_snoc, j_trace0; reflexivity|rewrite messages_snoc, j_res0; apply app_nil_r].
    + intros s s' []. unfold print_text. rewrite J. cbn. split; [reflexivity|]. constructor; cbn [s_trace s_results s_errored s_heap s_dbs s_files s_cache]; auto; [rewrite as_json_snoc, j_trace0; reflexivity|rewrite messages_snoc, j_res0; apply app_nil_r].
Qed.
Lemma json_run E O fs cache r s : o_json O = false -> run E O (start fs cache) = (r, s) ->
  exists rs s', run E (with_json O true) (start fs cache) = (r, s')
    /\ messages KRes (s_trace s) = map (result_string (e_col E)) rs
    /\ s_trace s' = flat_map as_json (s_trace s) ++ [EOut KDoc Stdout (results_json (e_osv_json E) rs)]
    /\ s_files s' = s_files s /\ s_cache s' = s_cache s.
Proof.
  intros J R. unfold run in *. rewrite J in R. change (o_json (with_json O true)) with true. cbv iota.
  pose proof (json_body E O J (start fs cache) (start fs cache)) as B. destruct (run_body E O (start fs cache)) as [r1 s1]. injection R as -> ->.
  destruct (run_body E (with_json O true) (start fs cache)) as [r2 s2].
  assert (L : r2 = r /\ jrel E s s2). { assert (L0 : jrel E (start fs cache) (start fs cache)) by now constructor. specialize (B L0). destruct r, r2; try contradiction; [destruct B as [<- B]; auto|auto]. }
  destruct L as [-> []]. eexists (s_results s2), _. split; [reflexivity|]. cbn. rewrite j_trace0. auto.
Qed.

(** ** other words *)
Record trel (s s' : St) : Prop := mkTrel {
  t_trace : flat_map deed (s_trace s) = flat_map deed (s_trace s');
  t_err : s_errored s = s_errored s';
  t_heap : s_heap s = s_heap s';
  t_dbs : s_dbs s = s_dbs s';
  t_files : s_files s = s_files s';
  t_cache : s_cache s = s_cache s' }.
Lemma deed_snoc l e : flat_map deed (l ++ [e]) = flat_map deed l ++ deed e.
Proof. rewrite flat_map_app. cbn. now rewrite app_nil_r. Qed.
Definition wrong (l : string) : bool := has_prefix l "Error updating".
Definition shout (O : Opts) (line : string) : M unit := if wrong line then print_error line else print_text O line.
Lemma lines_deed O : forall l s, exists s', each (shout O) l s = (Ok tt, s')
  /\ flat_map deed (s_trace s') = flat_map deed (s_trace s) ++ repeat (EOut KErr Stderr "") (List.length (filter wrong l))
  /\ s_errored s' = (s_errored s || negb (Nat.eqb (List.length (filter wrong l)) 0))%bool
  /\ s_heap s' = s_heap s /\ s_dbs s' = s_dbs s /\ s_files s' = s_files s /\ s_cache s' = s_cache s.
Proof.
  induction l as [|x l IH]; intros s; cbn [each filter].
  - exists s. cbn. rewrite app_nil_r, orb_false_r. auto 10.
  - unfold shout at 1. destruct (wrong x).
    + match goal with |- context [bind ?m ?f s] => change (bind m f s) with (each (shout O) l (snd (print_error x s))) end.
      destruct (IH (snd (print_error x s))) as (s' & H & T & B & R). exists s'. split; [exact H|]. cbn in T, B, R. rewrite deed_snoc in T. rewrite T, B, <- app_assoc. cbn. rewrite orb_true_r. auto.
    + match goal with |- context [bind ?m ?f s] => change (bind m f s) with (each (shout O) l (snd (print_text O x s))) end.
      destruct (IH (snd (print_text O x s))) as (s' & H & T & B & R). exists s'. split; [exact H|]. cbn in T, B, R. rewrite deed_snoc in T. cbn [deed] in T. rewrite app_nil_r in T. rewrite T, B. auto.
Qed.
Lemma wrong_same okt l l' : Forall2 (same_line okt) l l' -> List.length (filter wrong l) = List.length (filter wrong l').
Proof. induction 1 as [|a b l l' [_ H] _ IH]; [reflexivity|]. cbn [filter]. unfold wrong in *. rewrite H. destruct (has_prefix b _); cbn; congruence. Qed.
Lemma wrong_perm l l' : Permutation l l' -> List.length (filter wrong l) = List.length (filter wrong l').
Proof. induction 1; cbn [filter]; repeat (match goal with |- context [wrong ?x] => destruct (wrong x) end); cbn; congruence. Qed.
Lemma text_body E col text oj ver O json : SorterOk (e_sort E) ->
  jr trel eq (run_body E O) (run_body (retold E col text oj ver) (with_json O json)).
Proof.
  intros SO. apply (jr_body E col text oj ver O json trel (fun _ _ => True)).
  - auto.
  - intros t t' _ s s' []. cbn. split; [reflexivity|]. constructor; cbn; auto. now rewrite !deed_snoc, t_trace0.
  - intros t t' _ s s' []. cbn. split; [reflexivity|]. constructor; cbn; auto. now rewrite !deed_snoc, t_trace0.
  - intros r s s' []. unfold print_result. destruct (o_json O), (o_json (with_json O json)); cbn; (split; [reflexivity|]); constructor; cbn; auto; rewrite ?deed_snoc, ?t_trace0; cbn; rewrite ?app_nil_r; auto.
  - intros e H s s' []. cbn. split; [reflexivity|]. constructor; cbn; auto. now rewrite !deed_snoc, t_trace0.
  - intros s s' L. cbn. split; [apply L|exact L].
  - intros s s' L. cbn. split; [apply L|exact L].
  - intros s s' L. cbn. split; [apply L|exact L].
  - intros s s' L. cbn. split; [apply L|exact L].
  - intros s s' L. cbn. split; [apply L|exact L].
  - intros h s s' []. cbn. split; [reflexivity|]. now constructor.
  - intros h s s' []. cbn. split; [reflexivity|]. now constructor.
  - intros h s s' []. cbn. split; [reflexivity|]. now constructor.
  - intros h s s' []. cbn. split; [reflexivity|]. now constructor.
  - intros l l' H s s' [].
    assert (C : List.length (filter wrong (e_sort E _ str_ltb l)) = List.length (filter wrong (e_sort E _ str_ltb l'))).
    { rewrite <- (wrong_perm _ _ (proj1 (SO _ _ l))), <- (wrong_perm _ _ (proj1 (SO _ _ l'))). exact (wrong_same _ _ _ H). }
    destruct (lines_deed O (e_sort E _ str_ltb l) s) as (s1 & Q1 & T1 & B1 & H1 & D1 & F1 & C1).
    destruct (lines_deed (with_json O json) (e_sort E _ str_ltb l') s') as (s2 & Q2 & T2 & B2 & H2 & D2 & F2 & C2).
    unfold shout, wrong in Q1, Q2. rewrite Q1, Q2. split; [reflexivity|]. constructor; congruence.
Qed.
Lemma text_run E col text oj ver O json fs cache r s r' s' : SorterOk (e_sort E) ->
  run E O (start fs cache) = (r, s) -> run (retold E col text oj ver) (with_json O json) (start fs cache) = (r', s') ->
  r = r' /\ flat_map deed (s_trace s) = flat_map deed (s_trace s') /\ s_files s = s_files s' /\ s_cache s = s_cache s'.
Proof.
  intros SO R R'. pose proof (text_body E col text oj ver O json SO (start fs cache) (start fs cache)) as B. unfold run in R, R'.
  destruct (run_body E O (start fs cache)) as [r1 s1]. destruct (run_body (retold E col text oj ver) (with_json O json) (start fs cache)) as [r2 s2].
  assert (L : r1 = r2 /\ trel s1 s2). { assert (L0 : trel (start fs cache) (start fs cache)) by now constructor. specialize (B L0). destruct r1, r2; try contradiction; [destruct B as [<- B]; auto|auto]. }
  destruct L as [-> []].
  assert (X : r = r2 /\ flat_map deed (s_trace s) = flat_map deed (s_trace s1) /\ s_files s = s_files s1 /\ s_cache s = s_cache s1).
  { destruct (o_json O); injection R as <- <-; cbn; rewrite ?deed_snoc; cbn; rewrite ?app_nil_r; auto. }
  assert (Y : r' = r2 /\ flat_map deed (s_trace s') = flat_map deed (s_trace s2) /\ s_files s' = s_files s2 /\ s_cache s' = s_cache s2).
  { destruct (o_json (with_json O json)); injection R' as <- <-; cbn; rewrite ?deed_snoc; cbn; rewrite ?app_nil_r; auto. }
  destruct X as (-> & -> & -> & ->), Y as (-> & -> & -> & ->). auto.
Qed.
