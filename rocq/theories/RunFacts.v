(** Corollaries about whole runs: what is shown, --list-packages, --offline. *)
From Verif Require Import GoStr GoStrFacts GoSort GoSortFacts Types Osv OsvSpec MemDB MemDBSpec MemDBProofs Path PathFacts Api ZipDB DirDB DbConfig Configer ConfigSpec ConfigProofs GoMap Lockfile LockfileSpec LockfileProofs Csv Ecosystems Report ReportSpec ReportProofs Json Main MainSpec MainTrace MainProofs DiscoverProofs Surface RunProofs.

(** ** steps that show no results *)
Definition plainly (a b : St) : Prop :=
  (exists n, s_trace b = s_trace a ++ n /\ messages KRes n = [] /\ messages KDoc n = [] /\ checks n = []) /\ s_results b = s_results a.
Lemma plainly_refl s : plainly s s.
Proof. split; [exists []; rewrite app_nil_r; auto|reflexivity]. Qed.
Lemma plainly_trans a b c : plainly a b -> plainly b c -> plainly a c.
Proof.
  intros [(m1 & M1 & A1 & B1 & C1) M2] [(m3 & M3 & A3 & B3 & C3) M4]. split; [|congruence]. exists (m1 ++ m3).
  rewrite !messages_app, checks_app, A1, B1, C1, A3, B3, C3, M3, M1, app_assoc. auto.
Qed.
Notation Plain := (keeps plainly).
Definition unshown (e : ev) : Prop := match e with EOut KRes _ _ | EOut KDoc _ _ | ECheck _ _ _ _ _ => False | _ => True end.
Lemma P_emit e : unshown e -> Plain (emit e).
Proof. intros H s. split; [|reflexivity]. exists [e]. split; [reflexivity|]. destruct e as [[] ? ?| | | | | | |]; try destruct H; auto. Qed.
Lemma P_error t : Plain (print_error t).
Proof. intros s. split; [|reflexivity]. exists [EOut KErr Stderr t]. auto. Qed.
Lemma P_same {A} (m : M A) : (forall s, s_trace (snd (m s)) = s_trace s /\ s_results (snd (m s)) = s_results s) -> Plain m.
Proof. intros H s. destruct (H s) as [H1 H2]. split; [|exact H2]. exists []. rewrite H1, app_nil_r. auto. Qed.
Ltac pp := repeat match goal with
  | |- keeps _ (bind _ _) => apply (keeps_bind _ plainly_trans); [|intros ?]
  | |- keeps _ (ret _) => apply keeps_ret, plainly_refl
  | |- keeps _ (lift _) => apply keeps_lift, plainly_refl
  | |- keeps _ (get _) => apply keeps_get, plainly_refl
  | |- keeps _ (print_error _) => apply P_error
  | |- keeps _ (print_text _ _) => apply P_emit; exact I
  | |- keeps _ (emit _) => apply P_emit; exact I
  | |- keeps _ (set_cache _) => apply P_same; split; reflexivity
  | |- keeps _ (set_heap _) => apply P_same; split; reflexivity
  | |- keeps _ (set_dbs _) => apply P_same; split; reflexivity
  | |- keeps _ (set_files _) => apply P_same; split; reflexivity
  | |- keeps _ (each _ _) => apply (keeps_each _ plainly_refl plainly_trans); intros ? ?
  | |- keeps _ (if ?b then _ else _) => destruct b
  | |- keeps _ (match ?b with _ => _ end) => destruct b
  | H : keeps _ ?m |- keeps _ ?m => exact H
  end.
Section Run.
Variable E : Env.
Variable O : Opts.
Lemma P_check_dbs k lf dbs : Plain (check_dbs E k dbs lf).
Proof. induction dbs as [|i dbs IH]; cbn [check_dbs]; pp. Qed.
Lemma P_write seen : Plain (write_updated_configs E O seen).
Proof.
  unfold write_updated_configs. pp. induction (e_iter E _ seen) as [|[p v] l IH]; cbn [update_all]; pp. unfold update_one. pp.
Qed.
Lemma P_load_databases cs names : Plain (load_databases E O cs names).
Proof. unfold load_databases. pp. induction cs as [|c cs IH]; cbn [load_loop]; pp; unfold print_load_err; pp. Qed.
Lemma P_load_cfg path : Plain (load_cfg E path). Proof. unfold load_cfg, report_db_errs. pp. Qed.
Lemma P_read_all paths cl : forall cfg, Plain (read_all E O paths cl cfg).
Proof.
  induction paths as [|p ps IH]; intros cfg; cbn [read_all]; [pp|]. destruct cl.
  - apply (keeps_bind _ plainly_trans); [unfold find_cfg; pp; apply P_load_cfg|]. intros [e|con]; unfold alloc; pp; apply IH.
  - unfold load_at, alloc. pp; apply IH.
Qed.
Lemma P_adjust files : Plain (adjust_all E O files).
Proof. unfold adjust_all, adjust_one. pp. Qed.
Lemma P_find_all : Plain (find_all_lockfiles E O).
Proof.
  unfold find_all_lockfiles. destruct (seqb (o_parse_as O) parse_as_csv_row); [pp|].
  induction (o_args O) as [|p ps IH]; cbn [find_all_loop]; [pp|].
  destruct (split_parse_as p) as [a path]. unfold find_lockfiles. pp.
Qed.

(** ** results shown while checking *)
Definition texts (rs : list Result) : list string := if o_json O then [] else map (result_string (e_col E)) rs.
Definition shows (rs : list Result) (s s' : St) (n : list ev) : Prop :=
  s_trace s' = s_trace s ++ n /\ messages KRes n = texts rs /\ messages KDoc n = []
  /\ s_results s' = s_results s ++ (if o_json O then rs else []).
Lemma texts_app a b : texts (a ++ b) = texts a ++ texts b.
Proof. unfold texts. destruct (o_json O); [reflexivity|apply map_app]. Qed.
Lemma shows_trans a b r1 r2 s1 s2 s3 : shows r1 s1 s2 a -> shows r2 s2 s3 b -> shows (r1 ++ r2) s1 s3 (a ++ b).
Proof.
  intros (A1 & A2 & A3 & A4) (B1 & B2 & B3 & B4). unfold shows. rewrite !messages_app, texts_app, A2, B2, A3, B3, B1, A1, B4, A4.
  split; [now rewrite app_assoc|]. split; [reflexivity|]. split; [reflexivity|]. destruct (o_json O); cbn; now rewrite ?app_assoc, ?app_nil_r.
Qed.
Lemma plainly_shows s s' : plainly s s' -> exists n, shows [] s s' n /\ checks n = [].
Proof.
  intros [(n & T & A & B & C) R]. exists n. split; [|exact C]. unfold shows, texts. rewrite T, A, B, R. destruct (o_json O); now rewrite app_nil_r.
Qed.
Lemma result_shows r s x s' : print_result E O r s = (x, s') -> exists n, shows [r] s s' n /\ checks n = [].
Proof.
  unfold print_result, shows, texts, add_result, emit. destruct (o_json O); intros H; injection H as _ <-; cbn.
  - exists []. rewrite app_nil_r. auto.
  - exists [EOut KRes Stdout (result_string (e_col E) r)]. cbn. rewrite app_nil_r. repeat split.
Qed.
Ltac plain H m x s1 Hm n Q C := step H x s1 Hm; let W := fresh in assert (W : plainly m s1) by (eapply keeps_at; [|exact Hm]; pp);
  apply plainly_shows in W as (n & Q & C).
Definition reports_of (n : list ev) : list Result := map (fun c => RReport (ck_report c)) (checks n).
Lemma check_files_shows files : o_list_pkgs O = false -> forall k exit seen s x s', check_files E O files k exit seen s = (Ok x, s') ->
  exists n, shows (reports_of n) s s' n.
Proof.
  intros L. induction files as [|f fs IH]; intros k exit seen s x s' H; cbn [check_files] in H.
  - injection H as _ <-. exists []. unfold shows, texts. cbn. rewrite app_nil_r. destruct (o_json O); now rewrite app_nil_r.
  - plain H s u0 s0 H0 n0 Q0 C0. destruct (l_err f) as [e|] eqn:Er.
    + plain H s0 u1 s1 H1 n1 Q1 C1. apply IH in H as (n & Q). exists (n0 ++ n1 ++ n). unfold reports_of. rewrite !checks_app, C0, C1.
      exact (shows_trans _ _ _ _ _ _ _ Q0 (shows_trans _ _ _ _ _ _ _ Q1 Q)).
    + step H h s1 H1. injection H1 as <- <-.
      plain H s0 u1 s1 H1 n1 Q1 C1. plain H s1 u2 s2 H2 n2 Q2 C2. rewrite L in H.
      plain H s2 u3 s3 H3 n3 Q3 C3. step H dbs s4 H4. injection H4 as <- <-.
      plain H s3 u5 s5 H5 n5 Q5 C5. plain H s5 u6 s6 H6 n6 Q6 C6.
      step H y s7 H7. assert (W : plainly s6 s7) by (eapply keeps_at; [|exact H7]; unfold check_lockfile; pp; apply P_check_dbs).
      apply plainly_shows in W as (n7 & Q7 & C7).
      unfold check_lockfile in H7. step H7 raw s71 H71. step H7 rows s72 H72. injection H7 as <- <-. cbn [fst snd] in H.
      step H u8 s8 H8. step H u9 s9 H9. apply result_shows in H9 as (n9 & Q9 & C9). apply IH in H as (n & Q).
      unfold emit in H8. injection H8 as _ <-.
      match type of Q9 with shows _ (mkSt (s_trace ?s ++ [?e]) _ _ _ _ _ _) _ _ =>
        assert (Q8 : shows [] s (mkSt (s_trace s ++ [e]) (s_errored s) (s_results s) (s_heap s) (s_dbs s) (s_files s) (s_cache s)) [e])
          by (unfold shows, texts; cbn; destruct (o_json O); now rewrite app_nil_r);
        exists (n0 ++ n1 ++ n2 ++ n3 ++ n5 ++ n6 ++ n7 ++ [e] ++ n9 ++ n) end.
      unfold reports_of. rewrite !checks_app, C0, C1, C2, C3, C5, C6, C7, C9. cbn [app checks flat_map map ck_report].
      pose proof (shows_trans _ _ _ _ _ _ _ Q9 Q) as W. pose proof (shows_trans _ _ _ _ _ _ _ Q8 W) as W0. clear W.
      pose proof (shows_trans _ _ _ _ _ _ _ Q7 W0) as W. clear W0.
      pose proof (shows_trans _ _ _ _ _ _ _ Q6 W) as W0. clear W.
      pose proof (shows_trans _ _ _ _ _ _ _ Q5 W0) as W. clear W0.
      pose proof (shows_trans _ _ _ _ _ _ _ Q3 W) as W0. clear W.
      pose proof (shows_trans _ _ _ _ _ _ _ Q2 W0) as W. clear W0.
      pose proof (shows_trans _ _ _ _ _ _ _ Q1 W) as W0. clear W.
      exact (shows_trans _ _ _ _ _ _ _ Q0 W0).
Qed.
Lemma check_files_lists files : o_list_pkgs O = true -> forall k exit seen s x s', check_files E O files k exit seen s = (Ok x, s') ->
  fst x = (if existsb (fun f => match l_err f with None => false | _ => true end) files then 127%Z else exit)
  /\ exists n, shows (map (fun f => RLock (l_lock f)) (goods files)) s s' n.
Proof.
  intros L. induction files as [|f fs IH]; intros k exit seen s x s' H; cbn [check_files] in H.
  - injection H as <- <-. split; [reflexivity|]. exists []. unfold shows, texts. cbn. rewrite app_nil_r. destruct (o_json O); now rewrite app_nil_r.
  - plain H s u0 s0 H0 n0 Q0 C0. unfold goods. cbn [filter existsb]. destruct (l_err f) as [e|] eqn:Er.
    + plain H s0 u1 s1 H1 n1 Q1 C1. apply IH in H as (X & n & Q). split; [cbn [orb]; rewrite X; now destruct (existsb _ fs)|]. exists (n0 ++ n1 ++ n).
      exact (shows_trans _ _ _ _ _ _ _ Q0 (shows_trans _ _ _ _ _ _ _ Q1 Q)).
    + step H h s1 H1. injection H1 as <- <-.
      plain H s0 u1 s1 H1 n1 Q1 C1. plain H s1 u2 s2 H2 n2 Q2 C2. rewrite L in H.
      step H u3 s3 H3. apply result_shows in H3 as (n3 & Q3 & _). apply IH in H as (X & n & Q). split; [exact X|]. exists (n0 ++ n1 ++ n2 ++ n3 ++ n).
      pose proof (shows_trans _ _ _ _ _ _ _ Q3 Q) as W.
      pose proof (shows_trans _ _ _ _ _ _ _ Q2 W) as W0. clear W.
      pose proof (shows_trans _ _ _ _ _ _ _ Q1 W0) as W. clear W0.
      exact (shows_trans _ _ _ _ _ _ _ Q0 W).
Qed.

Lemma run_files_shows paths cl cfg s code s' : o_list_pkgs O = false -> run_files E O paths cl cfg s = (Ok code, s') ->
  exists n, shows (reports_of n) s s' n.
Proof.
  intros L H. unfold run_files in H.
  step H lfs s1 H1. apply (keeps_at _ _ _ _ _ (P_read_all _ _ _)), plainly_shows in H1 as (n1 & Q1 & C1).
  step H u s2 H2. apply (keeps_at _ _ _ _ _ (P_adjust _)), plainly_shows in H2 as (n2 & Q2 & C2).
  step H h s3 H3. injection H3 as <- <-.
  step H x s3 H3. apply (keeps_at _ _ _ _ _ (P_load_databases _ _)), plainly_shows in H3 as (n3 & Q3 & C3).
  plain H s3 u4 s4 H4 n4 Q4 C4.
  step H y s5 H5. apply (check_files_shows _ L) in H5 as (n5 & Q5).
  step H u6 s6 H6. assert (W : plainly s5 s6) by (eapply keeps_at; [|exact H6]; pp; apply P_write). apply plainly_shows in W as (n6 & Q6 & C6).
  step H er s7 H7. injection H7 as <- <-. injection H as _ <-.
  exists (n1 ++ n2 ++ n3 ++ n4 ++ n5 ++ n6). unfold reports_of. rewrite !checks_app, C1, C2, C3, C4, C6, app_nil_r. cbn [app].
  pose proof (shows_trans _ _ _ _ _ _ _ Q5 Q6) as W. rewrite app_nil_r in W. unfold reports_of in W.
  pose proof (shows_trans _ _ _ _ _ _ _ Q4 W) as W0. clear W.
  pose proof (shows_trans _ _ _ _ _ _ _ Q3 W0) as W. clear W0.
  pose proof (shows_trans _ _ _ _ _ _ _ Q2 W) as W0. clear W.
  exact (shows_trans _ _ _ _ _ _ _ Q1 W0).
Qed.
Lemma prefix_shows rs s s1 s' : plainly s s1 -> (exists n, shows rs s1 s' n /\ rs = reports_of n) -> exists n, shows rs s s' n /\ rs = reports_of n.
Proof.
  intros P (n & Q & R). apply plainly_shows in P as (n0 & Q0 & C0). exists (n0 ++ n). split; [exact (shows_trans _ _ _ _ _ _ _ Q0 Q)|].
  unfold reports_of. rewrite checks_app, C0. exact R.
Qed.
Lemma plainly_reports s s' : plainly s s' -> exists n, shows (reports_of n) s s' n.
Proof. intros P. apply plainly_shows in P as (n & Q & C). exists n. unfold reports_of. now rewrite C. Qed.
Lemma plainly_then s s1 s' : plainly s s1 -> (exists n, shows (reports_of n) s1 s' n) -> exists n, shows (reports_of n) s s' n.
Proof.
  intros P (n & Q). apply plainly_shows in P as (n0 & Q0 & C0). exists (n0 ++ n). unfold reports_of. rewrite checks_app, C0.
  exact (shows_trans _ _ _ _ _ _ _ Q0 Q).
Qed.
Lemma run_config_shows paths s code s' : o_list_pkgs O = false -> run_config E O paths s = (Ok code, s') -> exists n, shows (reports_of n) s s' n.
Proof.
  intros L H. unfold run_config in H. rewrite L in H. destruct (_ && _).
  - step H x s1 H1. apply (keeps_at _ _ _ _ _ (P_load_cfg _)) in H1. destruct x as [e|con].
    + apply plainly_reports. eapply plainly_trans; [exact H1|]. eapply keeps_at; [|exact H]. pp.
    + step H c s2 H2. eapply plainly_then; [exact H1|]. eapply plainly_then; [eapply keeps_at; [|exact H2]; unfold alloc; pp|]. eapply run_files_shows; eauto.
  - step H c s2 H2. eapply plainly_then; [eapply keeps_at; [|exact H2]; unfold alloc; pp|]. eapply run_files_shows; eauto.
Qed.
Lemma run_body_shows s code s' : o_list_pkgs O = false -> run_body E O s = (Ok code, s') -> exists n, shows (reports_of n) s s' n.
Proof.
  intros L H. unfold run_body in H. destruct (o_version O).
  { apply plainly_reports. eapply keeps_at; [|exact H]. pp. }
  destruct (o_list_eco O).
  { apply plainly_reports. eapply keeps_at; [|exact H]. unfold print_known_ecosystems. pp. }
  destruct (negb _).
  { apply plainly_reports. eapply keeps_at; [|exact H]. pp. }
  step H x s1 H1. apply (keeps_at _ _ _ _ _ P_find_all) in H1. eapply plainly_then; [exact H1|]. destruct (Nat.eqb _ 0).
  - apply plainly_reports. eapply keeps_at; [|exact H]. pp.
  - eapply run_config_shows; eauto.
Qed.

(** ** the whole program *)
Lemma run_split s r s' : run E O s = (r, s') -> exists s1, run_body E O s = (r, s1)
  /\ s' = (if o_json O then mkSt (s_trace s1 ++ [EOut KDoc Stdout (results_json (e_osv_json E) (s_results s1))]) (s_errored s1) (s_results s1) (s_heap s1) (s_dbs s1) (s_files s1) (s_cache s1) else s1).
Proof.
  unfold run. destruct (run_body E O s) as [r1 s1]. destruct (o_json O); intros H; injection H as <- <-; exists s1; auto.
Qed.
Definition doc_of (s1 : St) : list ev := if o_json O then [EOut KDoc Stdout (results_json (e_osv_json E) (s_results s1))] else [].
Lemma run_trace s r s' : run E O s = (r, s') -> exists s1, run_body E O s = (r, s1) /\ s_trace s' = s_trace s1 ++ doc_of s1 /\ s_files s' = s_files s1.
Proof.
  intros H. apply run_split in H as (s1 & H & ->). exists s1. split; [exact H|]. unfold doc_of. destruct (o_json O); [auto|]. now rewrite app_nil_r.
Qed.
Lemma doc_checks s1 : checks (doc_of s1) = []. Proof. unfold doc_of. now destruct (o_json O). Qed.
Lemma doc_loads s1 : loads (doc_of s1) = []. Proof. unfold doc_of. now destruct (o_json O). Qed.
Lemma doc_failures s1 : failures (doc_of s1) = []. Proof. unfold doc_of. now destruct (o_json O). Qed.
Lemma doc_writes s1 : writes (doc_of s1) = []. Proof. unfold doc_of. now destruct (o_json O). Qed.
Lemma doc_errors s1 : messages KErr (doc_of s1) = []. Proof. unfold doc_of. now destruct (o_json O). Qed.
(** what a finished checking run shows *)
Lemma run_shown fs cache code s' : o_list_pkgs O = false -> run E O (start fs cache) = (Ok code, s') ->
  shown E O (s_trace s') (map (fun c => RReport (ck_report c)) (checks (s_trace s'))).
Proof.
  intros L H. apply run_trace in H as (s1 & H & T & _). apply (run_body_shows _ _ _ L) in H as (n & Q1 & Q2 & Q3 & Q4).
  cbn in Q1, Q4. rewrite T, checks_app, doc_checks, app_nil_r. unfold shown. rewrite !messages_app, Q1, Q2, Q3. unfold texts, doc_of, reports_of in *.
  rewrite Q4. destruct (o_json O); cbn; rewrite ?app_nil_r; auto.
Qed.
Lemma idle_doc tr s1 : idle tr -> idle (tr ++ doc_of s1).
Proof. intros I. apply idle_app; [exact I|]. repeat split; [apply doc_checks|apply doc_loads|apply doc_failures|apply doc_writes]. Qed.
Lemma exits_ext rs tr tr' code : checks tr = checks tr' -> failures tr = failures tr' -> messages KErr tr = messages KErr tr' -> exits rs tr code -> exits rs tr' code.
Proof. intros A B C H. destruct H; [apply ex_unread|apply ex_found|apply ex_error|apply ex_clean]; rewrite <- ?A, <- ?B, <- ?C; auto. Qed.
Lemma outcome_ext fs cache tr tr' code : checks tr = checks tr' -> loads tr = loads tr' -> failures tr = failures tr' -> writes tr = writes tr' ->
  messages KErr tr = messages KErr tr' -> outcome E O fs cache tr code -> outcome E O fs cache tr' code.
Proof.
  intros A B C D F H. assert (ID : idle tr -> idle tr') by (unfold idle; now rewrite A, B, C, D).
  destruct H; [eapply oc_parser|eapply oc_nothing|eapply oc_config|eapply oc_session]; rewrite <- ?F; eauto.
  - eapply session_ext; eauto.
  - eapply exits_ext; eauto.
  - intros M. apply H4. eapply mishap_ext; [| |exact M]; auto.
Qed.
(** ** every event of every run, finished or not *)
Definition allowed (e : ev) : Prop :=
  match e with
  | EOut KErr st _ => st = Stderr
  | EOut KText st _ => st = if o_json O then Stderr else Stdout
  | EOut KRes st _ => st = Stdout /\ o_json O = false
  | EOut KDoc st _ => False
  | EReadConfig _ => o_no_config O = false /\ o_list_pkgs O = false
  | EWriteConfig _ _ => o_no_config O = false /\ o_list_pkgs O = false /\ o_update O = true
  | ELoad _ | ELoadFailed _ _ | ECheck _ _ _ _ _ => o_list_pkgs O = false
  | EZip _ | EApi _ _ => o_list_pkgs O = false /\ o_offline O = false
  end.
Lemma body_allowed (IT : IterOk (e_iter E)) fs cache : Forall allowed (s_trace (snd (run_body E O (start fs cache)))).
Proof.
  assert (G : grows allowed (start fs cache) (snd (run_body E O (start fs cache)))).
  { assert (U : unconfigured O = false -> o_no_config O = false /\ o_list_pkgs O = false) by (unfold unconfigured; intros Q; now apply orb_false_iff in Q).
    apply run_body_grows; cbn [allowed]; auto. intros Q Up p c. destruct (U Q). auto. }
  destruct G as [n T F _]. cbn in T. now rewrite T.
Qed.
Hypothesis SO : SorterOk (e_sort E).
Hypothesis IT : IterOk (e_iter E).
Hypothesis EO : EntriesOk E.
Lemma run_outcome fs cache code s' : checking O -> run E O (start fs cache) = (Ok code, s') -> outcome E O fs cache (s_trace s') code.
Proof.
  intros CH H. apply run_trace in H as (s1 & H & T & _). apply (run_body_spec E O SO IT EO CH) in H. rewrite T.
  eapply (outcome_ext fs cache (s_trace s1)); rewrite ?checks_app, ?loads_app, ?failures_app, ?writes_app, ?messages_app, ?doc_checks, ?doc_loads, ?doc_failures, ?doc_writes, ?doc_errors, ?app_nil_r; auto.
  destruct H as [(_ & _ & _ & H)|(l & e & K & I & N & [(mode & rs & names & ds & S & X & Mh) _ _])]; [exact H|].
  eapply oc_session; eauto.
Qed.
(** exit codes *)
Lemma same_entries_refl E0 : same_entries E0 E0.
Proof. intros path. destruct (e_stat E0 path); auto. Qed.
Lemma exit_zero fs cache code s' : checking O -> run E O (start fs cache) = (Ok code, s') ->
  (code = 0%Z <-> messages KErr (s_trace s') = [] /\ ~ Exists flawed (checks (s_trace s'))).
Proof.
  intros CH H. pose proof (run_outcome _ _ _ _ CH H) as OC. set (tr := s_trace s') in *. destruct OC as [K I M|e K I D M|l e er K I N N1 N2 L D M|l e mode rs names ds code K I N S X Mh].
  - split; [discriminate|]. intros [Q _]. contradiction.
  - split; [destruct (negb e && _); discriminate|]. intros [Q _]. contradiction.
  - split; [discriminate|]. intros [Q _]. contradiction.
  - destruct X as [U|U F Fl|U F Fl M|U F Fl M].
    + split; [discriminate|]. intros [Q _]. exfalso. apply Mh; [|exact Q]. destruct U as [U|U]; [now apply mh_read|now apply mh_load].
    + split; [discriminate|]. intros [_ Q]. contradiction.
    + split; [discriminate|]. intros [Q _]. contradiction.
    + split; auto.
Qed.
Lemma exit_one fs cache code s' : checking O -> run E O (start fs cache) = (Ok code, s') -> code = 1%Z ->
  failures (s_trace s') = [] /\ Exists flawed (checks (s_trace s')).
Proof.
  intros CH H C. pose proof (run_outcome _ _ _ _ CH H) as OC. destruct OC as [K I M|e K I D M|l e er K I N N1 N2 L D M|l e mode rs names ds code K I N S X Mh]; try discriminate.
  - destruct (negb e && _); discriminate.
  - destruct X; try discriminate. auto.
Qed.
Lemma exit_128 fs cache code s' : checking O -> run E O (start fs cache) = (Ok code, s') ->
  (code = 128%Z <-> known_as (o_parse_as O) /\ o_args O <> [] /\ inputs E O [] false).
Proof.
  intros CH H. pose proof (run_outcome _ _ _ _ CH H) as OC.
  assert (UN : forall l e l' e', inputs E O l e -> inputs E O l' e' -> l = l' /\ e = e').
  { intros l e l' e' H1 H2. inversion H1 as [Q1 A1 B1|l1 e1 Q1 F1 A1 B1]; subst; inversion H2 as [Q2 A2 B2|l2 e2 Q2 F2 A2 B2]; subst; auto; try contradiction.
    eapply (finds_all_unique E E); [exact F1|apply same_entries_refl|exact F2]. }
  destruct OC as [K I M|e K I D M|l e er K I N N1 N2 L D M|l e mode rs names ds code K I N S X Mh].
  - split; [discriminate|]. intros (Q & _). contradiction.
  - split.
    + intros Q. split; [exact K|]. destruct e; cbn [negb andb] in Q; [discriminate|]. split; [|exact I]. intros A. rewrite A in Q. cbn in Q. discriminate.
    + intros (_ & A & I'). destruct (UN _ _ _ _ I I') as [_ ->]. destruct (o_args O); [contradiction|reflexivity].
  - split; [discriminate|]. intros (_ & _ & I'). destruct (UN _ _ _ _ I I') as [-> _]. contradiction.
  - split; [destruct X; discriminate|]. intros (_ & _ & I'). destruct (UN _ _ _ _ I I') as [-> _]. contradiction.
Qed.
End Run.
