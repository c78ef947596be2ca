From Verif Require Import GoStr GoStrFacts GoSort GoMap Types Osv MemDB Path Api ZipDB DirDB DbConfig Configer Lockfile Csv Report Main MainSpec MainTrace MainProofs OfflineProofs Warnings FullRun FullRunSpec.

(** ** without its notices, it is the run of Main.v *)
Lemma dids_app a b : dids (a ++ b) = dids a ++ dids b. Proof. apply flat_map_app. Qed.
Lemma dids_notes l : dids (map Note l) = []. Proof. induction l; auto. Qed.
Lemma dids_did l : dids (map Did l) = l. Proof. induction l as [|a l IH]; [reflexivity|]. cbn. now f_equal. Qed.
Definition faithful {A} (m : M A) (w : W A) : Prop := forall s,
  m s = (fst (fst (w s)), snd (fst (w s))) /\ s_trace (snd (fst (w s))) = s_trace s ++ dids (snd (w s)).
Lemma skipn_all_app {A} (a b : list A) : skipn (List.length a) (a ++ b) = b.
Proof. induction a; auto. Qed.
Lemma faithful_up {A} (m : M A) : keeps ext m -> faithful m (up m).
Proof.
  intros K s. unfold up. specialize (K s). destruct (m s) as [r s']. cbn in *. destruct K as [n N]. split; [reflexivity|]. rewrite N at 2. now rewrite skipn_all_app, dids_did.
Qed.
Lemma faithful_bind {A B} (m : M A) w (f : A -> M B) g : faithful m w -> (forall a, faithful (f a) (g a)) -> faithful (bind m f) (wbind w g).
Proof.
  intros H K s. destruct (H s) as [Q T]. unfold bind, wbind. rewrite Q. destruct (w s) as [[[a|] s1] o1]; cbn in *; [|auto].
  destruct (K a s1) as [Q2 T2]. destruct (g a s1) as [[r s2] o2]. cbn in *. split; [exact Q2|]. now rewrite T2, T, dids_app, app_assoc.
Qed.
Lemma faithful_notes {A} l (m : M A) w : faithful m w -> faithful m (wbind (notes l) (fun _ => w)).
Proof. intros H s. destruct (H s) as [Q T]. unfold wbind, notes. destruct (w s) as [[r s2] o2]. cbn in *. split; [exact Q|]. now rewrite dids_app, dids_notes. Qed.
Lemma ext_cache c : keeps ext (set_cache c). Proof. now apply ext_same. Qed.
Ltac ee := repeat (cbv zeta; match goal with
  | |- keeps _ (bind _ _) => apply (keeps_bind _ ext_trans); [|intros ?]
  | |- keeps _ (ret _) => apply keeps_ret, ext_refl
  | |- keeps _ (lift _) => apply keeps_lift, ext_refl
  | |- keeps _ (get _) => apply keeps_get, ext_refl
  | |- keeps _ (print_text _ _) => unfold print_text
  | |- keeps _ (print_error _) => unfold print_error
  | |- keeps _ (print_result _ _ _) => unfold print_result
  | |- keeps _ (print_load_err _ _) => unfold print_load_err
  | |- keeps _ (print_known_ecosystems _) => unfold print_known_ecosystems
  | |- keeps _ (alloc _) => unfold alloc
  | |- keeps _ (load_at _) => unfold load_at
  | |- keeps _ (find_cfg _ _) => unfold find_cfg
  | |- keeps _ (load_cfg _ _) => unfold load_cfg, report_db_errs
  | |- keeps _ (adjust_all _ _ _) => unfold adjust_all, adjust_one
  | |- keeps _ (find_all_lockfiles _ _) => unfold find_all_lockfiles
  | |- keeps _ (find_lockfiles _ _ _) => unfold find_lockfiles
  | |- keeps _ (emit _) => apply ext_emit
  | |- keeps _ (set_heap _) => now apply ext_same
  | |- keeps _ (set_dbs _) => now apply ext_same
  | |- keeps _ (set_files _) => now apply ext_same
  | |- keeps _ (set_cache _) => apply ext_cache
  | |- keeps _ set_errored => now apply ext_same
  | |- keeps _ (add_result _) => now apply ext_same
  | |- keeps _ (each _ _) => apply (keeps_each _ ext_refl ext_trans); intros ? ?
  | H : forall _, keeps _ _ |- _ => solve [apply H]
  | H : keeps _ _ |- _ => exact H
  | |- keeps _ (if ?b then _ else _) => destruct b
  | |- keeps _ (let '(_, _) := ?b in _) => destruct b
  | |- keeps _ (match ?b with _ => _ end) => destruct b
  end).
Ltac ff := repeat (cbv zeta; match goal with
  | |- faithful _ (wbind (notes _) _) => apply faithful_notes
  | |- faithful (bind _ _) (wbind _ _) => apply faithful_bind; [|intros ?]
  | |- faithful _ (wret _) => unfold wret
  | |- faithful ?m (up ?m) => apply faithful_up; solve [ee]
  | H : faithful _ _ |- _ => exact H
  | H : forall _, faithful _ _ |- _ => solve [apply H]
  | H : forall _ _, faithful _ _ |- _ => solve [apply H]
  | H : forall _ _ _, faithful _ _ |- _ => solve [apply H]
  | H : forall _ _ _ _, faithful _ _ |- _ => solve [apply H]
  | |- faithful (if ?b then _ else _) _ => destruct b
  | |- faithful (let '(_, _) := ?b in _) _ => destruct b
  | |- faithful (match ?b with _ => _ end) _ => destruct b
  end).

Section Run.
Variable E : Env.
Variable V : Voice.
Variable O : Opts.
Lemma faithful_read : forall paths cl cfg, faithful (read_all E O paths cl cfg) (read_all_full E V O paths cl cfg).
Proof. induction paths as [|p ps IH]; intros cl cfg; cbn [read_all read_all_full]; ff. Qed.
Lemma faithful_check_dbs k lockf : forall dbs, faithful (check_dbs E k dbs lockf) (check_dbs_full E k dbs lockf).
Proof. induction dbs as [|i dbs IH]; cbn [check_dbs check_dbs_full]; ff. Qed.
Lemma faithful_check k dbs lockf ign : faithful (check_lockfile E k dbs lockf ign) (check_lockfile_full E k dbs lockf ign).
Proof. unfold check_lockfile, check_lockfile_full. pose proof (faithful_check_dbs k lockf). ff. Qed.
Lemma faithful_check_files : forall files k exit seen, faithful (check_files E O files k exit seen) (check_files_full E O files k exit seen).
Proof.
  pose proof faithful_check as K. induction files as [|f files IH]; intros k exit seen; cbn [check_files check_files_full]; ff.
Qed.
Hypothesis writes : forall path, v_write_err V path = None.
Lemma faithful_loop names : forall configs, faithful (load_loop E O configs names) (load_loop_full E V O configs names).
Proof.
  induction configs as [|c configs IH]; cbn [load_loop load_loop_full]; [ff|]. rewrite writes. do 3 (apply faithful_bind; [ff|intros ?]). cbv zeta.
  destruct (load_db _ _ _ _ _ _) as [[r w] reqs]. apply faithful_notes. apply faithful_bind; [ff|intros _].
  apply faithful_bind; [destruct w; ff|intros _]. ff.
Qed.
Lemma faithful_load configs names : faithful (load_databases E O configs names) (load_databases_full E V O configs names).
Proof. unfold load_databases, load_databases_full. pose proof (faithful_loop names). ff. Qed.
Lemma faithful_run_files paths cl cfg : faithful (run_files E O paths cl cfg) (run_files_full E V O paths cl cfg).
Proof.
  unfold run_files, run_files_full. pose proof faithful_read. pose proof faithful_load. pose proof faithful_check_files. pose proof (ext_write E O). ff.
Qed.
Lemma faithful_run_body : faithful (run_body E O) (run_body_full E V O).
Proof.
  assert (L : forall l, keeps ext (find_all_loop E O l)) by (induction l as [|x l IH]; cbn [find_all_loop]; ee).
  unfold run_body, run_body_full, run_config, run_config_full. pose proof faithful_run_files. ff.
Qed.
Lemma marshal_ok l : (forall v, In v l -> v_osv_err V v = None) -> marshal_err V l = None.
Proof. induction l as [|v l IH]; intros H; [reflexivity|]. cbn [marshal_err]. rewrite (H v (or_introl eq_refl)). apply IH. intros w I. apply H. now right. Qed.
Theorem run_erased s r s' o : (forall v, v_osv_err V v = None) -> run_full E V O s = (r, s', o) -> run E O s = (r, s') /\ s_trace s' = s_trace s ++ dids o.
Proof.
  intros PR. assert (PJ : forall s1, up (print_json_results_full E V) s1 = up (print_json_results E) s1).
  { intros s1. unfold up, print_json_results_full, bind, get. cbn [lift]. rewrite marshal_ok; auto. }
  unfold run_full, run. destruct (faithful_run_body s) as [Q T]. destruct (run_body_full E V O s) as [[r1 s1] o1]. cbn in Q, T. rewrite Q. destruct (o_json O).
  - assert (K : keeps ext (print_json_results E)) by (unfold print_json_results; ee). destruct (faithful_up _ K s1) as [Q2 T2]. rewrite PJ.
    destruct (up (print_json_results E) s1) as [[r2 s2] o2]. cbn [fst snd] in Q2, T2. rewrite Q2. intros [= <- <- <-]. split; [reflexivity|]. now rewrite T2, T, dids_app, app_assoc.
  - intros [= <- <- <-]. auto.
Qed.
End Run.
(** the same run if every advisory could be printed: only its last step differs *)
Definition printing (V : Voice) : Voice := mkVoice (v_parser V) (v_json_err V) (v_read_err V) (v_write_err V) (fun _ => None).
Lemma body_printing E V O : run_body_full E (printing V) O = run_body_full E V O. Proof. reflexivity. Qed.
Lemma run_printing E V O s r s' o : run_full E V O s = (r, s', o) -> exists s1 o1, run_body_full E V O s = (r, s1, o1)
  /\ if o_json O then
       run_full E (printing V) O s = (r, snd (print_json_results E s1), o1 ++ [Did (EOut KDoc Stdout (results_json (e_osv_json E) (s_results s1)))])
       /\ match marshal_err V (flat_map result_osvs (s_results s1)) with
          | Some err => s' = snd (print_error ("an error occurred when printing results as JSON: " +s+ err) s1)
                        /\ o = o1 ++ [Did (EOut KErr Stderr ("an error occurred when printing results as JSON: " +s+ err))]
          | None => s' = snd (print_json_results E s1) /\ o = o1 ++ [Did (EOut KDoc Stdout (results_json (e_osv_json E) (s_results s1)))]
          end
     else run_full E (printing V) O s = (r, s', o) /\ s' = s1 /\ o = o1.
Proof.
  unfold run_full. rewrite body_printing. destruct (run_body_full E V O s) as [[r1 s1] o1]. intros H. exists s1, o1. destruct (o_json O).
  - assert (R : r1 = r). { destruct (up (print_json_results_full E V) s1) as [[r2 s2] o2]. congruence. } subst r1. split; [reflexivity|].
    assert (N : marshal_err (printing V) (flat_map result_osvs (s_results s1)) = None) by (apply marshal_ok; auto).
    split.
    + unfold up, print_json_results_full, bind, get. cbn [lift]. rewrite N. unfold print_json_results, bind, get, emit. cbn [lift s_trace snd]. now rewrite skipn_all_app.
    + unfold up, print_json_results_full, bind, get in H. cbn [lift] in H. destruct (marshal_err V _) as [err|].
      * unfold print_error, set_errored, emit, bind in H. cbn [s_trace] in H. rewrite skipn_all_app in H. injection H as <- <-. auto.
      * unfold print_json_results, bind, get, emit in H. cbn [lift s_trace] in H. rewrite skipn_all_app in H. injection H as <- <-. auto.
  - injection H as -> <- <-. auto.
Qed.
