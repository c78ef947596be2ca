From Verif Require Import GoStr GoStrFacts GoMap GoSort Types Json JsonFacts JsonRound JsonSpec JsonGrammar Osv MemDB Path Api ZipDB DirDB DbConfig Configer Csv Ecosystems OsvJson OsvJsonSpec OsvJsonProofs OsvJsonRound Lockfile Report ReportProofs ReportDocSpec ReportDocProofs
  Main MainSpec MainTrace MainProofs DiscoverProofs Surface RunProofs RunFacts RunEnd ListProofs ListDocSpec ListDocProofs Nulls NullSpec.

(** ** slices *)
Lemma grown_some l : forall s, fold_left appended l (Some s) = Some (s ++ l).
Proof. induction l as [|p l IH]; intros s; [cbn; now rewrite app_nil_r|]. change (fold_left appended l (Some (s ++ [p])) = Some (s ++ p :: l)). rewrite IH, <- app_assoc. reflexivity. Qed.
Lemma grown l : fold_left appended l None = match l with [] => None | _ => Some l end.
Proof. destruct l as [|p l]; [reflexivity|]. change (fold_left appended l (Some [p]) = Some (p :: l)). now rewrite grown_some. Qed.
Lemma nil_as_iff name : nil_as name = true <-> In name nil_names.
Proof.
  split.
  - unfold nil_as. rewrite !orb_true_iff. intros [[H|H]|H].
    + pose proof (seqb_spec name parse_as_csv_row) as Q. rewrite H in Q. inversion Q as [Q'|]. rewrite Q'. cbn. auto 10.
    + pose proof (seqb_spec name parse_as_csv_file) as Q. rewrite H in Q. inversion Q as [Q'|]. rewrite Q'. cbn. auto 10.
    + unfold parsers in H. cbn [map_get] in H.
      repeat match type of H with context [if seqb ?a ?b then _ else _] => destruct (seqb_spec a b) as [Q|_]; [first [discriminate H | rewrite Q; cbn; auto 10; fail | rewrite <- Q; cbn; auto 10]|] end. discriminate H.
  - intros H. repeat (destruct H as [<- |H]; [reflexivity|]). destruct H.
Qed.
Lemma packages_null l : slice_json (packages_of l) = JNull <-> null_listed l.
Proof.
  unfold packages_of, null_listed. rewrite <- nil_as_iff. destruct (nil_as (lf_as l)); [rewrite grown|]; destruct (lf_pkgs l); cbn; split; intros H; try discriminate; auto; now destruct H.
Qed.
Lemma packages_cases l : slice_json (packages_of l) = JNull /\ lf_pkgs l = [] \/ slice_json (packages_of l) = JArr (map (fun p => JObj (pkg_fields p)) (lf_pkgs l)).
Proof. unfold packages_of. destruct (nil_as (lf_as l)); [rewrite grown|]; destruct (lf_pkgs l); cbn; auto. Qed.

(** ** the document *)
Section Docs.
Variable oj : OSV -> json.
Lemma exact_written l : exact_doc (result_json_nil oj (RLock l)) l.
Proof.
  unfold result_json_nil. set (v := slice_json (packages_of l)). match goal with |- exact_doc (JObj ?l) _ => set (L := l); assert (N : NoDup (map (fun kv => fold_key (fst kv)) L)) by (unfold L; keys) end.
  assert (P : member L "packages" (Some v)) by exact (lookup_member L "packages" N).
  apply ed_doc with v; [|exact P|apply packages_null].
  destruct (packages_cases l) as [[Q E]|Q]; fold v in Q; rewrite Q in P.
  - apply (kd_none L l (lookup L "filepath") (lookup L "parsedas")); try (apply lookup_member; exact N); try exact (said _); auto.
  - eapply (kd_doc L l (lookup L "filepath") (lookup L "parsedas")); try (apply lookup_member; exact N); try exact P; try exact (said _).
    apply docs_map. apply Forall_forall. intros p _. apply pkg_written.
Qed.
Lemma exact_good l : Forall utf8 (lock_texts l) -> good (result_json_nil oj (RLock l)) = true.
Proof.
  intros U. pose proof (lock_good oj l U) as G. unfold result_json_nil. unfold result_json in G.
  destruct (packages_cases l) as [[-> _]| ->]; [|exact G].
  unfold lock_texts in U. apply Forall_app in U as [U1 _]. inversion U1 as [|? ? A U3]; subst. inversion U3 as [|? ? B _]; subst.
  apply good_obj. constructor; [split; [key|now apply good_str]|]. constructor; [split; [key|now apply good_str]|]. constructor; [|constructor]. split; [key|reflexivity].
Qed.
Lemma exact_listed ls : Forall (fun l => Forall utf8 (lock_texts l)) ls ->
  exists j, json_text (results_json_nil oj (map RLock ls)) j /\ exact_listing j ls.
Proof.
  intros S. exists (JObj [("results", JArr (map (result_json_nil oj) (map RLock ls)))]). split.
  - apply text_iff. unfold results_json_nil. apply text_print. apply good_obj. constructor; [|constructor]. split; [key|]. cbn [snd]. apply good_map. intros r I.
    apply in_map_iff in I as (x & <- & I). rewrite Forall_forall in S. apply exact_good. auto.
  - eapply el_doc. { apply mb_some with [] "results" []; [reflexivity|reflexivity| |]; intros (q & w & [] & _). }
    rewrite map_map. apply docs_map. apply Forall_forall. intros l _. apply exact_written.
Qed.
End Docs.
Lemma exact_reads j ls : exact_listing j ls -> listing_doc j ls.
Proof. intros [fields fs l M F]. apply sd_doc with fs; [exact M|]. clear M. induction F as [|a b l l' H F IH]; constructor; auto. now destruct H. Qed.

(** ** runs *)
Section Run.
Variable E : Env.
Variable O : Opts.
Lemma nil_pair s : run_nil E O s = (fst (run_body E O s), if o_json O then snd (emit (EOut KDoc Stdout (results_json_nil (e_osv_json E) (s_results (snd (run_body E O s))))) (snd (run_body E O s))) else snd (run_body E O s)).
Proof. unfold run_nil. destruct (run_body E O s) as [r s1]. now destruct (o_json O). Qed.
Lemma run_pair s : run E O s = (fst (run_body E O s), if o_json O then snd (emit (EOut KDoc Stdout (results_json (e_osv_json E) (s_results (snd (run_body E O s))))) (snd (run_body E O s))) else snd (run_body E O s)).
Proof. unfold run. destruct (run_body E O s) as [r s1]. now destruct (o_json O). Qed.
Lemma nil_same s r s1 r' s2 : o_json O = true -> run E O s = (r, s1) -> run_nil E O s = (r', s2) ->
  r = r' /\ s_files s1 = s_files s2 /\ s_cache s1 = s_cache s2
  /\ exists t rs, s_trace s1 = t ++ [EOut KDoc Stdout (results_json (e_osv_json E) rs)] /\ s_trace s2 = t ++ [EOut KDoc Stdout (results_json_nil (e_osv_json E) rs)].
Proof.
  intros J R R'. rewrite run_pair, J in R. rewrite nil_pair, J in R'. injection R as <- <-. injection R' as <- <-. cbn. repeat split. eauto.
Qed.

Definition is_report (r : Result) : Prop := match r with RReport _ => True | RLock _ => False end.
Definition rp (a b : St) : Prop := Forall is_report (s_results a) -> Forall is_report (s_results b).
Lemma rp_refl s : rp s s. Proof. unfold rp. auto. Qed.
Lemma rp_trans a b c : rp a b -> rp b c -> rp a c. Proof. unfold rp. auto. Qed.
Ltac rr := repeat (cbv zeta; match goal with
  | |- keeps _ (bind _ _) => apply (keeps_bind _ rp_trans); [|intros ?]
  | |- keeps _ (ret _) => apply keeps_ret, rp_refl
  | |- keeps _ (lift _) => apply keeps_lift, rp_refl
  | |- keeps _ (get _) => apply keeps_get, rp_refl
  | |- keeps _ (print_text _ _) => intros ?; exact (rp_refl _)
  | |- keeps _ (print_error _) => intros ?; exact (rp_refl _)
  | |- keeps _ (emit _) => intros ?; exact (rp_refl _)
  | |- keeps _ (set_heap _) => intros ?; exact (rp_refl _)
  | |- keeps _ (set_dbs _) => intros ?; exact (rp_refl _)
  | |- keeps _ (set_files _) => intros ?; exact (rp_refl _)
  | |- keeps _ (set_cache _) => intros ?; exact (rp_refl _)
  | |- keeps _ (each _ _) => apply (keeps_each _ rp_refl rp_trans); intros ? ?
  | H : keeps _ ?m |- keeps _ ?m => exact H
  | H : forall _, keeps _ _ |- _ => solve [apply H]
  | H : forall _ _, keeps _ _ |- _ => solve [apply H]
  | H : forall _ _ _, keeps _ _ |- _ => solve [apply H]
  | H : forall _ _ _ _, keeps _ _ |- _ => solve [apply H]
  | |- keeps _ (if ?b then _ else _) => destruct b
  | |- keeps _ (let '(_, _) := ?b in _) => destruct b
  | |- keeps _ (match ?b with _ => _ end) => destruct b
  end).
Lemma rp_report r : keeps rp (print_result E O (RReport r)).
Proof. intros s. unfold print_result, rp. destruct (o_json O); cbn; auto. intros H. apply Forall_app. split; [exact H|]. now repeat constructor. Qed.
Lemma rp_load_cfg path : keeps rp (load_cfg E path). Proof. unfold load_cfg, report_db_errs. rr. Qed.
Lemma rp_find_cfg dir : keeps rp (find_cfg E dir). Proof. pose proof rp_load_cfg. unfold find_cfg. rr. Qed.
Lemma rp_alloc c : keeps rp (alloc c). Proof. unfold alloc. rr. Qed.
Lemma rp_read : forall paths cl cfg, keeps rp (read_all E O paths cl cfg).
Proof. pose proof rp_find_cfg. pose proof rp_alloc. induction paths as [|p ps IH]; intros cl cfg; cbn [read_all]; unfold load_at; rr. Qed.
Lemma rp_load configs names : keeps rp (load_databases E O configs names).
Proof.
  assert (H : forall cs, keeps rp (load_loop E O cs names)). { induction cs as [|c cs IH]; cbn [load_loop]; unfold print_load_err; rr. }
  unfold load_databases. rr.
Qed.
Lemma rp_check k use lockf ign : keeps rp (check_lockfile E k use lockf ign).
Proof. assert (H : forall u, keeps rp (check_dbs E k u lockf)). { induction u as [|i u IH]; cbn [check_dbs]; rr. } unfold check_lockfile. rr. Qed.
Lemma rp_check_files : o_list_pkgs O = false -> forall fl k exit seen, keeps rp (check_files E O fl k exit seen).
Proof. intros L. pose proof rp_check. pose proof rp_report. induction fl as [|f fl IH]; intros k exit seen; cbn [check_files]; [rr|]. rewrite L. rr. Qed.
Lemma rp_write seen : keeps rp (write_updated_configs E O seen).
Proof. assert (H : forall l, keeps rp (update_all E l)). { induction l as [|x l IH]; cbn [update_all]; [rr|]. unfold update_one. destruct x. rr. } unfold write_updated_configs. rr. Qed.
Lemma rp_find_all : keeps rp (find_all_lockfiles E O).
Proof.
  assert (F : forall path a, keeps rp (find_lockfiles E path a)). { intros path a. unfold find_lockfiles. destruct (e_stat E path); rr. }
  assert (H : forall l, keeps rp (find_all_loop E O l)). { induction l as [|x l IH]; cbn [find_all_loop]; [rr|]. destruct (split_parse_as x). rr. }
  unfold find_all_lockfiles. rr.
Qed.
Lemma rp_run_files paths cl cfg : o_list_pkgs O = false -> keeps rp (run_files E O paths cl cfg).
Proof.
  intros L. pose proof rp_read. pose proof rp_load. pose proof (rp_check_files L). pose proof rp_write. unfold run_files, adjust_all, adjust_one. rr.
Qed.
Lemma rp_body : o_list_pkgs O = false -> keeps rp (run_body E O).
Proof.
  intros L. pose proof rp_find_all. pose proof rp_alloc. pose proof rp_load_cfg. pose proof (fun p c g => rp_run_files p c g L).
  unfold run_body, print_known_ecosystems, run_config. generalize known_ecosystems. generalize (list_parsers (e_sort E) (e_iter E)). intros lp ke. rr.
Qed.
Lemma nil_report oj rs : Forall is_report rs -> results_json_nil oj rs = results_json oj rs.
Proof.
  intros H. unfold results_json_nil, results_json. do 5 f_equal. induction H as [|r rs R _ IH]; [reflexivity|]. cbn [map]. rewrite IH. now destruct r.
Qed.
Lemma nil_run fs cache : o_list_pkgs O = false \/ o_json O = false -> run_nil E O (start fs cache) = run E O (start fs cache).
Proof.
  intros H. rewrite nil_pair, run_pair. destruct (o_json O); [|reflexivity]. destruct H as [L|L]; [|discriminate]. now rewrite (nil_report _ _ (rp_body L (start fs cache) (Forall_nil _))).
Qed.

(** ** listings *)
Hypothesis SO : SorterOk (e_sort E).
Hypothesis IT : IterOk (e_iter E).
Hypothesis EO : EntriesOk E.
Lemma list_results fs cache code s1 : o_json O = true -> listing O -> known_as (o_parse_as O) -> run_body E O (start fs cache) = (Ok code, s1) ->
  exists l e rs, inputs E O l e /\ listed_as E O l rs /\ s_results s1 = map RLock (given rs).
Proof.
  intros J (C1 & C2 & C3) KN H. unfold run_body in H. rewrite C1, C2 in H. apply known_as_iff in KN. rewrite KN in H. cbn [negb] in H.
  step H x s2 Hf. pose proof (keeps_at _ _ _ _ _ (P_find_all E O) Hf) as P1.
  assert (IN : exists l e, inputs E O l e /\ x = (map as_arg l, e)).
  { destruct (string_dec (o_parse_as O) "csv-row") as [Q|Q].
    - exists [("csv-row", "-")], false. split; [now apply in_rows|]. unfold find_all_lockfiles, parse_as_csv_row in Hf. rewrite Q in Hf. cbn in Hf. now injection Hf as <- _.
    - destruct (find_all_spec E O SO EO (start fs cache) Q) as (l & e & s3 & F1 & F2 & _). rewrite F1 in Hf. injection Hf as <- _.
      exists l, e. split; [now apply in_found|reflexivity]. }
  destruct IN as (l & e & IN & ->). cbn [fst snd] in H. rewrite map_length in H. apply (plainly_shows E O) in P1 as (n0 & (_ & _ & _ & A4) & _). unfold texts in A4. rewrite J in A4. cbn in A4.
  destruct l as [|q l].
  { cbn [List.length Nat.eqb] in H. exists [], e, []. split; [exact IN|]. split; [constructor|]. injection H as _ <-. cbn. now rewrite A4. }
  cbn [List.length Nat.eqb] in H. unfold run_config in H. rewrite C3 in H. step H cfg s3 Ha. unfold alloc in Ha. injection Ha as <- <-.
  apply (run_files_lists E O SO) in H as (rs & n & LA & SH & _ & _); auto.
  2:{ cbn. now rewrite nth_middle. }
  2:{ cbn. rewrite app_length. cbn. lia. }
  exists (q :: l), e, rs. split; [exact IN|]. split; [exact LA|]. destruct SH as (_ & _ & _ & B4). rewrite J in B4. cbn in B4. now rewrite B4, A4.
Qed.
Lemma list_exact fs cache code s' : o_json O = true -> listing O -> known_as (o_parse_as O) -> run_nil E O (start fs cache) = (Ok code, s') ->
  exists l e rs, inputs E O l e /\ listed_as E O l rs
    /\ (Forall (fun l => Forall utf8 (lock_texts l)) (given rs) ->
        exists text j, stdout (s_trace s') = [text] /\ json_text text j /\ exact_listing j (given rs)).
Proof.
  intros J HL KN H. rewrite nil_pair, J in H. injection H as H1 H2. destruct (run_body E O (start fs cache)) as [r s1] eqn:B. cbn [fst snd] in *. subst r.
  destruct (list_results fs cache code s1 J HL KN B) as (l & e & rs & I & L & R). exists l, e, rs. split; [exact I|]. split; [exact L|]. intros U.
  destruct (exact_listed (e_osv_json E) (given rs) U) as (j & P & X). exists (results_json_nil (e_osv_json E) (s_results s1)), j. rewrite R. split; [|auto].
  assert (RN : run E O (start fs cache) = (Ok code, snd (print_json_results E s1))). { unfold run. rewrite B, J. reflexivity. }
  destruct (json_stdout E O fs cache _ _ IT J RN) as (n & d & T & S1 & _). cbn in T. apply app_inj_tail in T as [T _].
  rewrite <- H2. cbn. unfold stdout in *. rewrite flat_map_app, T, S1, R. reflexivity.
Qed.
End Run.
