From Coq Require Import Lia Permutation.
From Verif Require Import GoStr GoStrFacts GoSort Types Osv MemDB Path PathFacts Api ZipDB DirDB DbConfig Configer GoMap Lockfile Csv Report Json Main.
From Verif Require Import OsvSpec MemDBSpec ReportSpec MainSpec MainTrace MainProofs Surface RunProofs RunFacts UpdateProofs TouchSpec TouchProofs QuietSpec QuietProofs ReignoreSpec ReignoreProofs.
From Verif Require QuietRunProofs.

Section Runs.
Variable E : Env.
Variable O : Opts.
Hypothesis SO : SorterOk (e_sort E).
Hypothesis IT : IterOk (e_iter E).

Lemma twin_runs I fs fs' cache cache' r s r' s' : reignored (e_dec_yaml E) I fs fs' -> (forall p, cache p = cache' p) ->
  run E O (start fs cache) = (r, s) -> run E O (start fs' cache') = (r', s') ->
  twin_run O I fs fs' s s' /\ (r = Panic <-> r' = Panic).
Proof.
  intros RE HC H H'. pose proof (twins E O I fs fs' cache cache' SO IT RE HC) as [[N _] C]. rewrite H, H' in *. cbn [fst snd] in *. split; [exact N|].
  destruct r, r'; try contradiction; split; intros; congruence.
Qed.
Lemma errored_said fs cache r s : run E O (start fs cache) = (r, s) -> s_errored s = true <-> messages KErr (s_trace s) <> [].
Proof.
  intros H. unfold run in H. assert (G : grows (fun _ => True) (start fs cache) (snd (run_body E O (start fs cache)))) by (apply run_body_grows; auto).
  destruct (run_body E O (start fs cache)) as [r1 s1]. destruct G as [n T _ Er]. cbn in T, Er. destruct (o_json O).
  - cbn in H. injection H as _ <-. cbn [s_errored s_trace]. rewrite messages_app, app_nil_r, T, <- err_messages, Er. reflexivity.
  - injection H as _ <-. rewrite T, <- err_messages, Er. reflexivity.
Qed.
Lemma twin_codes fs fs' cache cache' c s c' s' : reignored (e_dec_yaml E) (@incl string) fs fs' -> (forall p, cache p = cache' p) ->
  run E O (start fs cache) = (Ok c, s) -> run E O (start fs' cache') = (Ok c', s') ->
  c = c' \/ c = 1%Z /\ (messages KErr (s_trace s) = [] /\ c' = 0%Z \/ messages KErr (s_trace s) <> [] /\ c' = 127%Z).
Proof.
  intros RE HC H H'. pose proof (twins E O _ fs fs' cache cache' SO IT RE HC) as [_ C]. pose proof (errored_said _ _ _ _ H) as ER. rewrite H, H' in C. cbn [fst snd] in C.
  destruct (C (fun _ _ x => x)) as [->|[-> X]]; [now left|right]. split; [reflexivity|]. destruct X as [[E1 ->]|[E1 ->]].
  - left. split; [|reflexivity]. destruct (messages KErr (s_trace s)); [reflexivity|]. assert (s_errored s = true) by (apply ER; discriminate). congruence.
  - right. split; [now apply ER|reflexivity].
Qed.
Lemma twin_rows fs fs' cache cache' r s r' s' : reignored (e_dec_yaml E) (@incl string) fs fs' -> (forall p, cache p = cache' p) ->
  run E O (start fs cache) = (r, s) -> run E O (start fs' cache') = (r', s') ->
  Forall2 (fun ck ck' => incl (ck_ignores ck) (ck_ignores ck')
    /\ Forall2 (quieter_row (ck_ignores ck) (ck_ignores ck')) (rp_pkgs (ck_report ck)) (rp_pkgs (ck_report ck'))) (checks (s_trace s)) (checks (s_trace s')).
Proof.
  intros RE HC H H'. destruct (twin_runs _ _ _ _ _ _ _ _ _ RE HC H H') as [[C _ _ _ _] _].
  eapply QuietRunProofs.forall2_impl; [|exact C]. intros ck ck' (_ & _ & _ & (own & own' & A1 & A2 & A3 & _) & _ & F).
  assert (J : incl (ck_ignores ck) (ck_ignores ck')).
  { rewrite A1, A2. apply incl_app; [|apply incl_appr, incl_refl]. apply incl_appl. destruct A3 as [->|A3]; [apply incl_refl|exact A3]. }
  split; [exact J|]. eapply QuietRunProofs.forall2_impl; [|exact F]. intros a b. now apply quieter_rows.
Qed.

(** ** running with --update-config-ignores twice *)
Hypothesis EO : EntriesOk E.
Lemma rewritten fs cache r s : run E O (start fs cache) = (r, s) -> read_back E (s_trace s) -> reignored (e_dec_yaml E) any_ids fs (s_files s).
Proof.
  intros H RB p. destruct (run_final E O fs cache SO IT EO r s H) as [B F]. destruct (F p) as [Q|(c & W & Q)]; [now left|right].
  pose proof (b_trace _ _ _ _ _ B) as A. rewrite Forall_forall in A. specialize (A _ W). inversion A as [| | | | | | |q raw ids CH U CP LR QP]; subst.
  unfold load_raw in LR. destruct (fs (clean q)) as [c| |] eqn:FC; try discriminate. destruct (e_dec_yaml E c) as [rw|] eqn:DC; [|discriminate]. injection LR as ->.
  exists c, (e_enc_yaml E (mkRC ids (rc_dbs raw))), (rc_ignore raw), ids, (rc_dbs raw). repeat split; auto.
  - rewrite DC. now destruct raw.
  - now apply RB with (p := clean q).
Qed.
Lemma twice fs cache cache' r s r' s' : run E O (start fs cache) = (r, s) -> read_back E (s_trace s) -> (forall p, cache p = cache' p) ->
  run E O (start (s_files s) cache') = (r', s') ->
  twin_run O any_ids fs (s_files s) s s' /\ (r = Panic <-> r' = Panic) /\ forall p, s_files s' p = s_files s p.
Proof.
  intros H RB HC H'. destruct (twin_runs _ _ _ _ _ _ _ _ _ (rewritten _ _ _ _ H RB) HC H H') as [T P]. split; [exact T|]. split; [exact P|].
  intros p. destruct (tr_files _ _ _ _ _ _ T p) as [Q|[_ Q]]; auto.
Qed.
Lemma forall2_right {A B} (R : A -> B -> Prop) l l' b : Forall2 R l l' -> In b l' -> exists a, In a l /\ R a b.
Proof. induction 1 as [|x y l l' H F IH]; [intros []|]. intros [<-|K]; [exists x; split; [now left|exact H]|]. destruct (IH K) as (a & A1 & A2). exists a. split; [now right|exact A2]. Qed.
Lemma twice_clean fs cache cache' c s c' s' : checking O -> o_update O = true -> o_no_ignores O = false ->
  run E O (start fs cache) = (Ok c, s) -> read_back E (s_trace s) -> (forall p, cache p = cache' p) ->
  run E O (start (s_files s) cache') = (Ok c', s') ->
  forall ck, In ck (checks (s_trace s')) -> flawed ck -> ck_cfg ck = "" \/ e_openable E (ck_cfg ck) = false.
Proof.
  intros CH U NI H RB HC H' ck I F. destruct (string_dec (ck_cfg ck) "") as [Q|NE]; [now left|right].
  apply not_true_is_false. intros OP. destruct (twice _ _ _ _ _ _ _ H RB HC H') as ([TC _ _ _ _] & _ & _).
  destruct (forall2_right _ _ _ _ TC I) as (k1 & I1 & (C1 & C2 & C3 & _ & C4 & _)).
  refine (next_clean E O E O fs cache cache' c c' s s' SO IT EO SO IT EO CH U CH NI eq_refl H H' k1 ck I1 I (eq_sym C1) _ _ _ _ (eq_sym C3) F).
  - now rewrite C1.
  - now rewrite C1.
  - intros rc W. apply RB with (p := ck_cfg k1). revert W. generalize (s_trace s). clear. intros tr. unfold writes. rewrite in_flat_map. intros (e & X & Y).
    destruct e; try destruct Y. injection H as -> ->. exact X. destruct H.
  - now rewrite C4.
Qed.
Lemma twice_exit fs cache cache' c s c' s' : checking O -> o_update O = true -> o_no_ignores O = false ->
  run E O (start fs cache) = (Ok c, s) -> read_back E (s_trace s) -> (forall p, cache p = cache' p) ->
  run E O (start (s_files s) cache') = (Ok c', s') ->
  (forall ck, In ck (checks (s_trace s)) -> ck_cfg ck <> "" /\ e_openable E (ck_cfg ck) = true) ->
  (c' = 0%Z <-> messages KErr (s_trace s') = []).
Proof.
  intros CH U NI H RB HC H' ALL. pose proof (exit_zero E O SO IT EO _ _ _ _ CH H') as X. rewrite X. split; [tauto|]. intros M. split; [exact M|].
  intros F. apply Exists_exists in F as (ck & I & F). destruct (twice _ _ _ _ _ _ _ H RB HC H') as ([TC _ _ _ _] & _ & _).
  destruct (forall2_right _ _ _ _ TC I) as (k1 & I1 & (C1 & _)). destruct (ALL k1 I1) as [A1 A2]. rewrite C1 in *.
  destruct (twice_clean _ _ _ _ _ _ _ CH U NI H RB HC H' ck I F); congruence.
Qed.
End Runs.
