From Verif Require Import GoStr GoStrFacts GoSort GoMap Types Osv Lockfile Report Json Main MainSpec MainTrace MainProofs RunFacts RunEnd FullRun FullRunSpec FullRunProofs UnprintedSpec.

Section Run.
Variable E : Env.
Variable V : Voice.
Variable O : Opts.
Lemma marshal_some l err : marshal_err V l = Some err <-> exists before v after, l = before ++ v :: after /\ Forall (printable V) before /\ v_osv_err V v = Some err.
Proof.
  induction l as [|v l IH]; cbn [marshal_err].
  - split; [discriminate|]. intros (b & v & a & Q & _). destruct b; discriminate.
  - destruct (v_osv_err V v) as [e|] eqn:Ev.
    + split.
      * intros [= ->]. exists [], v, l. auto.
      * intros (b & w & a & Q & F & S). destruct b as [|x b]; injection Q as -> ->; [congruence|]. inversion F; subst. unfold printable in *. congruence.
    + rewrite IH. split; intros (b & w & a & Q & F & S).
      * exists (v :: b), w, a. subst l. split; [reflexivity|]. split; [now constructor|exact S].
      * destruct b as [|x b]; injection Q as -> ->; [congruence|]. inversion F; subst. eauto 6.
Qed.
Lemma marshal_none l : marshal_err V l = None <-> Forall (printable V) l.
Proof.
  induction l as [|v l IH]; cbn [marshal_err]; [split; auto|]. destruct (v_osv_err V v) eqn:Ev.
  - split; [discriminate|]. intros F. inversion F; subst. unfold printable in *. congruence.
  - rewrite IH. split; intros F; [now constructor|now inversion F].
Qed.
Hypothesis writes : forall path, v_write_err V path = None.
(** the run that prints *)
Lemma run_same s r s' o : run_full E V O s = (r, s', o) -> exists s'', run E O s = (r, s'')
  /\ (o_json O = false -> s' = s'' /\ s_trace s'' = s_trace s ++ dids o)
  /\ (o_json O = true -> exists o1, s_trace s'' = s_trace s ++ dids o1 ++ [EOut KDoc Stdout (results_json (e_osv_json E) (s_results s''))]
       /\ match marshal_err V (flat_map result_osvs (s_results s'')) with
          | None => o = o1 ++ [Did (EOut KDoc Stdout (results_json (e_osv_json E) (s_results s'')))] /\ s' = s''
          | Some err => o = o1 ++ [Did (unprinted err)]
          end).
Proof.
  intros H. apply run_printing in H as (s1 & o1 & B & H). destruct (o_json O).
  - destruct H as [H M]. apply (run_erased E (printing V) O writes _ _ _ _ (fun _ => eq_refl)) in H as [H T].
    eexists. split; [exact H|]. split; [discriminate|]. intros _. exists o1. rewrite T, dids_app. cbn [dids flat_map app].
    split; [reflexivity|]. cbn [print_json_results bind get lift emit snd s_results]. destruct (marshal_err V _); destruct M as [M1 M2]; [exact M2|auto].
  - destruct H as (H & _ & _). apply (run_erased E (printing V) O writes _ _ _ _ (fun _ => eq_refl)) in H as [H T]. exists s'. split; [exact H|]. split; [auto|discriminate].
Qed.
Lemma results_reports fs cache code s' : o_list_pkgs O = false -> o_json O = true -> run E O (start fs cache) = (Ok code, s') ->
  s_results s' = map (fun c => RReport (ck_report c)) (checks (s_trace s')).
Proof.
  intros L J H. apply run_split in H as (s1 & H & Q). rewrite J in Q. subst s'. apply (run_body_shows E O _ _ _ L) in H as (n & Q1 & _ & _ & Q4).
  cbn in Q1, Q4 |- *. rewrite checks_app. cbn. rewrite app_nil_r, Q4, Q1, J. reflexivity.
Qed.
Lemma listed_osvs tr : flat_map result_osvs (map (fun c => RReport (ck_report c)) (checks tr)) = listed tr.
Proof. unfold listed. induction (checks tr) as [|c l IH]; [reflexivity|]. cbn [map flat_map result_osvs]. now rewrite IH. Qed.
Lemma listed_last tr k st t : listed (tr ++ [EOut k st t]) = listed tr.
Proof. unfold listed. rewrite checks_app. cbn. now rewrite app_nil_r. Qed.
Lemma stdout_app a b : stdout (a ++ b) = stdout a ++ stdout b. Proof. apply flat_map_app. Qed.

Hypothesis IT : IterOk (e_iter E).
Hypothesis J : o_json O = true.
Theorem json_any fs cache r s' o : run_full E V O (start fs cache) = (r, s', o) ->
  exists o1 e, o = o1 ++ [Did e] /\ stdout (dids o1) = [] /\ ((exists d, e = EOut KDoc Stdout d) \/ exists v err, v_osv_err V v = Some err /\ e = unprinted err).
Proof.
  intros H. apply run_same in H as (s2 & H & _ & K). destruct (K J) as (o1 & T & M). clear K. destruct (json_stdout _ _ _ _ _ _ IT J H) as (n & d & T2 & S & _).
  rewrite T in T2. cbn [start s_trace app] in T2. apply app_inj_tail in T2 as [<- _].
  destruct (marshal_err V _) as [err|] eqn:Me.
  - exists o1, (unprinted err). split; [exact M|]. split; [exact S|]. right. apply marshal_some in Me as (b & v & a & _ & _ & Ev). eauto.
  - destruct M as [M _]. exists o1. eexists. split; [exact M|]. split; [exact S|]. left. eauto.
Qed.
Theorem json_document fs cache code s' o : o_list_pkgs O = false -> run_full E V O (start fs cache) = (Ok code, s', o) ->
  (Forall (printable V) (listed (dids o)) -> stdout (dids o) = [results_json (e_osv_json E) (map (fun c => RReport (ck_report c)) (checks (dids o)))])
  /\ forall before v after err, listed (dids o) = before ++ v :: after -> Forall (printable V) before -> v_osv_err V v = Some err ->
       stdout (dids o) = [] /\ exists o1, o = o1 ++ [Did (unprinted err)].
Proof.
  intros L H. apply run_same in H as (s2 & H & _ & K). destruct (K J) as (o1 & T & M). clear K. destruct (json_stdout _ _ _ _ _ _ IT J H) as (n & d & T2 & S & _).
  pose proof (results_reports _ _ _ _ L J H) as RR. pose proof T as T0. rewrite T in T2. cbn [start s_trace app] in T2. apply app_inj_tail in T2 as [<- _].
  cbn [start s_trace app] in T0. assert (CK : checks (s_trace s2) = checks (dids o1)) by (rewrite T0, checks_app; cbn; now rewrite app_nil_r).
  rewrite RR, CK, listed_osvs in M. destruct (marshal_err V _) as [err|] eqn:Me.
  - subst o. rewrite dids_app. cbn [dids flat_map app]. unfold unprinted. rewrite listed_last. split.
    + intros F. apply marshal_none in F. congruence.
    + intros b v a err' Q F Ev. rewrite stdout_app, S. cbn. split; [reflexivity|]. exists o1. f_equal. f_equal. f_equal.
      assert (X : marshal_err V (listed (dids o1)) = Some err') by (apply marshal_some; eauto 6). unfold unprinted. congruence.
  - destruct M as [-> _]. rewrite dids_app. cbn [dids flat_map app]. rewrite listed_last. split.
    + intros _. rewrite stdout_app, checks_app, S. cbn [stdout flat_map checks app]. now rewrite app_nil_r.
    + intros b v a err' Q F Ev. assert (X : marshal_err V (listed (dids o1)) = Some err') by (apply marshal_some; eauto 6). congruence.
Qed.
(** lockfiles alone are always printed *)
Definition bare_of_osvs (a b : St) : Prop := flat_map result_osvs (s_results a) = [] -> flat_map result_osvs (s_results b) = [].
Lemma bo_refl s : bare_of_osvs s s. Proof. unfold bare_of_osvs. auto. Qed.
Lemma bo_trans a b c : bare_of_osvs a b -> bare_of_osvs b c -> bare_of_osvs a c. Proof. unfold bare_of_osvs. auto. Qed.
Lemma bo_plain {A} (m : M A) : Plain m -> keeps bare_of_osvs m.
Proof. intros P s. destruct (P s) as [_ Q]. unfold bare_of_osvs. now rewrite Q. Qed.
Ltac bo := repeat match goal with
  | |- keeps _ (bind _ _) => apply (keeps_bind _ bo_trans); [|intros ?]
  | H : forall _ _ _, keeps _ (run_files _ _ _ _ _) |- keeps _ (run_files _ _ _ _ _) => apply H
  | |- keeps _ (check_files _ _ _ _ _ _) => solve [auto]
  | |- keeps _ (if ?b then _ else _) => destruct b
  | |- keeps _ (match ?b with _ => _ end) => destruct b
  | |- keeps _ (load_cfg _ _) => apply bo_plain, P_load_cfg
  | |- keeps _ (load_databases _ _ _ _) => apply bo_plain, P_load_databases
  | |- keeps _ (write_updated_configs _ _ _) => apply bo_plain, P_write
  | |- keeps _ (read_all _ _ _ _ _) => apply bo_plain, P_read_all
  | |- keeps _ (adjust_all _ _ _) => apply bo_plain, P_adjust
  | |- keeps _ (find_all_lockfiles _ _) => apply bo_plain, P_find_all
  | |- keeps _ _ => apply bo_plain; unfold alloc, print_known_ecosystems; solve [pp]
  end.
Lemma locks_only fs : o_list_pkgs O = true -> forall k exit seen, keeps bare_of_osvs (check_files E O fs k exit seen).
Proof.
  intros L. induction fs as [|f fs IH]; intros k exit seen; cbn [check_files]; [bo|]. rewrite L.
  apply (keeps_bind _ bo_trans); [bo|intros _]. destruct (l_err f); [bo|]. do 3 (apply (keeps_bind _ bo_trans); [bo|intros ?]).
  apply (keeps_bind _ bo_trans); [|intros _; apply IH]. intros s. unfold bare_of_osvs, print_result, add_result, emit. destruct (o_json O); cbn; [|auto].
  intros Q. now rewrite flat_map_app, Q.
Qed.
Lemma results_locks fs cache r s' : o_list_pkgs O = true -> run E O (start fs cache) = (r, s') -> flat_map result_osvs (s_results s') = [].
Proof.
  intros L H. apply run_split in H as (s1 & H & Q). assert (X : flat_map result_osvs (s_results s1) = []).
  { assert (K : keeps bare_of_osvs (run_body E O)).
    { pose proof (fun fs => locks_only fs L) as LO.
      assert (RF : forall paths cl cfg, keeps bare_of_osvs (run_files E O paths cl cfg)) by (intros; unfold run_files; bo; apply LO).
      unfold run_body, run_config. bo. }
    apply (keeps_at _ _ _ _ _ K H). cbn [start s_results flat_map]. reflexivity. }
  subst s'. destruct (o_json O); exact X.
Qed.
Theorem json_list fs cache r s' o : o_list_pkgs O = true -> run_full E V O (start fs cache) = (r, s', o) -> run E O (start fs cache) = (r, s') /\ s_trace s' = dids o.
Proof.
  intros L H. apply run_same in H as (s2 & H & _ & K). destruct (K J) as (o1 & T & M). clear K. rewrite (results_locks _ _ _ _ L H) in M. destruct M as [-> ->].
  split; [exact H|]. rewrite T, dids_app. reflexivity.
Qed.
End Run.
