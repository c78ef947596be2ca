(** Once an error message is printed hasErrored stays set; which failures print one. *)
From Verif Require Import GoStr GoStrFacts GoSort GoSortFacts Types Osv MemDB Path Api ZipDB DirDB DbConfig Configer GoMap Lockfile Csv Ecosystems Report Json Main MainSpec MainTrace MainProofs.

Definition mono (s s' : St) : Prop := s_errored s = true -> s_errored s' = true.
Lemma mono_refl s : mono s s. Proof. intros H. exact H. Qed.
Lemma mono_trans a b c : mono a b -> mono b c -> mono a c. Proof. unfold mono. auto. Qed.
Notation Mono := (keeps mono).
Lemma M_ret {A} (a : A) : Mono (ret a). Proof. apply keeps_ret, mono_refl. Qed.
Lemma M_lift {A} (r : res A) : Mono (lift r). Proof. apply keeps_lift, mono_refl. Qed.
Lemma M_get {A} (f : St -> A) : Mono (get f). Proof. apply keeps_get, mono_refl. Qed.
Lemma M_bind {A B} (m : M A) (f : A -> M B) : Mono m -> (forall a, Mono (f a)) -> Mono (bind m f).
Proof. apply keeps_bind, mono_trans. Qed.
Lemma M_each {A} (f : A -> M unit) l : (forall a, In a l -> Mono (f a)) -> Mono (each f l).
Proof. apply keeps_each; [apply mono_refl|apply mono_trans]. Qed.
Lemma M_same {A} (m : M A) : (forall s, s_errored (snd (m s)) = s_errored s) -> Mono m.
Proof. intros H s. unfold mono. now rewrite H. Qed.
Lemma M_error t : Mono (print_error t). Proof. intros s _. reflexivity. Qed.
Lemma error_sets t s r s' : print_error t s = (r, s') -> s_errored s' = true.
Proof. intros H. injection H as _ <-. reflexivity. Qed.
Ltac mm := repeat match goal with
  | |- keeps _ (bind _ _) => apply M_bind; [|intros ?]
  | |- keeps _ (ret _) => apply M_ret
  | |- keeps _ (lift _) => apply M_lift
  | |- keeps _ (get _) => apply M_get
  | |- keeps _ (print_error _) => apply M_error
  | |- keeps _ (print_text _ _) => apply M_same; reflexivity
  | |- keeps _ (emit _) => apply M_same; reflexivity
  | |- keeps _ (set_cache _) => apply M_same; reflexivity
  | |- keeps _ (set_heap _) => apply M_same; reflexivity
  | |- keeps _ (set_dbs _) => apply M_same; reflexivity
  | |- keeps _ (set_files _) => apply M_same; reflexivity
  | |- keeps _ (add_result _) => apply M_same; reflexivity
  | |- keeps _ (each _ _) => apply M_each; intros ? ?
  | |- keeps _ (if ?b then _ else _) => destruct b
  | |- keeps _ (match ?b with _ => _ end) => destruct b
  | H : keeps _ ?m |- keeps _ ?m => exact H
  end.
Section Run.
Variable E : Env.
Variable O : Opts.
Lemma M_result r : Mono (print_result E O r). Proof. unfold print_result. mm. Qed.
Lemma M_load_err e : Mono (print_load_err E e). Proof. unfold print_load_err. mm. Qed.
Lemma M_check_dbs k lf dbs : Mono (check_dbs E k dbs lf).
Proof. induction dbs as [|i dbs IH]; cbn [check_dbs]; mm. Qed.
Lemma M_check_files files : forall k exit seen, Mono (check_files E O files k exit seen).
Proof.
  induction files as [|f fs IH]; intros k exit seen; cbn [check_files]; [mm|]. apply M_bind; [mm|]. intros _.
  destruct (l_err f); [mm; apply IH|]. mm; try apply M_result; try apply IH. unfold check_lockfile. mm. apply M_check_dbs.
Qed.
Lemma M_update_all l : Mono (update_all E l).
Proof. induction l as [|[p v] l IH]; cbn [update_all]; mm. unfold update_one. mm. Qed.
Lemma M_write seen : Mono (write_updated_configs E O seen).
Proof. unfold write_updated_configs. mm. apply M_update_all. Qed.
Lemma M_load_loop names cs : Mono (load_loop E O cs names).
Proof.
  induction cs as [|c cs IH]; cbn [load_loop]; [mm|]. mm. all: try apply M_load_err.
Qed.
Lemma M_load_cfg path : Mono (load_cfg E path).
Proof. unfold load_cfg, report_db_errs. mm. Qed.
Lemma M_find_cfg dir : Mono (find_cfg E dir).
Proof. unfold find_cfg. mm; apply M_load_cfg. Qed.
Lemma M_read_all paths cl : forall cfg, Mono (read_all E O paths cl cfg).
Proof.
  induction paths as [|p ps IH]; intros cfg; cbn [read_all]; [mm|]. destruct cl.
  - apply M_bind; [apply M_find_cfg|]. intros [e|con]; unfold alloc; mm; apply IH.
  - unfold load_at, alloc. mm; apply IH.
Qed.
Lemma M_adjust files : Mono (adjust_all E O files).
Proof. unfold adjust_all, adjust_one. mm. Qed.
Lemma M_load_databases cs names : Mono (load_databases E O cs names).
Proof. unfold load_databases. mm. apply M_load_loop. Qed.
Lemma M_run_files paths cl cfg : Mono (run_files E O paths cl cfg).
Proof.
  unfold run_files. apply M_bind; [apply M_read_all|]. intros files. apply M_bind; [apply M_adjust|]. intros _. apply M_bind; [mm|]. intros h.
  apply M_bind; [apply M_load_databases|]. intros x. apply M_bind; [mm|]. intros _. apply M_bind; [apply M_check_files|]. intros y.
  apply M_bind; [destruct (o_update O); [apply M_write|mm]|]. intros _. mm.
Qed.

Ltac after m H := (* m : Mono proof, H : run equation *) let Q := fresh "Q" in pose proof (keeps_at _ _ _ _ _ m H) as Q.
Lemma then_errored {A} (m : M A) s r s' : Mono m -> m s = (r, s') -> s_errored s = true -> s_errored s' = true.
Proof. intros K H. exact (keeps_at _ _ _ _ _ K H). Qed.

(** which failures set it *)
Lemma load_loop_errored names cs : forall s ds s', load_loop E O cs names s = (Ok (ds, true), s') -> s_errored s' = true.
Proof.
  induction cs as [|c cs IH]; intros s ds s' H; cbn [load_loop] in H; [discriminate|].
  step H u s1 H1. step H u2 s2 H2. step H cache s3 H3. destruct (load_db _ _ _ _ _ _) as [[r w] reqs].
  step H u4 s4 H4. step H u5 s5 H5. step H x s6 H6. destruct x as [e|db].
  - step H u7 s7 H7. step H u8 s8 H8. step H y s9 H9. injection H as _ ->.
    eapply then_errored; [apply M_load_loop|exact H9|]. unfold print_load_err in H8. eapply error_sets; exact H8.
  - step H u7 s7 H7. step H y s9 H9. injection H as Hy1 Hy ->. destruct y as [ds' b]. cbn in Hy. subst b. eapply IH; eauto.
Qed.
Lemma check_dbs_errored k lf dbs : forall s raw s', check_dbs E k dbs lf s = (Ok raw, s') ->
  List.length raw = List.length dbs \/ s_errored s' = true.
Proof.
  induction dbs as [|i dbs IH]; intros s raw s' H; cbn [check_dbs] in H.
  - injection H as <- _. now left.
  - step H ds s0 H0. destruct (nth_error ds i) as [d|]; [|discriminate]. step H u s1 H1. step H x s2 H2. destruct x as [r d'].
    step H u3 s3 H3. destruct r as [e|results].
    + step H u4 s4 H4. right. eapply then_errored; [apply M_check_dbs|exact H|]. eapply error_sets; exact H4.
    + step H rest s4 H4. injection H as <- <-. destruct (IH _ _ _ H4) as [L|L]; [left; cbn; now rewrite L|now right].
Qed.
Lemma check_files_errored files : forall k exit seen s x s', check_files E O files k exit seen s = (Ok x, s') ->
  Exists (fun f => l_err f <> None) files -> s_errored s' = true.
Proof.
  induction files as [|f fs IH]; intros k exit seen s x s' H X; cbn [check_files] in H; [inversion X|].
  step H u s1 H1. destruct (l_err f) as [e|] eqn:Er.
  - step H u2 s2 H2. eapply then_errored; [apply M_check_files|exact H|]. eapply error_sets; exact H2.
  - inversion X as [? ? X1|? ? X1]; subst; [contradiction|].
    step H h s2 H2. step H u3 s3 H3. step H u4 s4 H4. destruct (o_list_pkgs O).
    + step H u5 s5 H5. eapply IH; eauto.
    + step H u5 s5 H5. step H dbs s6 H6. step H u7 s7 H7. step H u8 s8 H8. step H y s9 H9. step H u10 s10 H10. step H u11 s11 H11. eapply IH; eauto.
Qed.
(** an unanswered question *)
Lemma for_configs_bound dbs cs i : In i (for_configs dbs cs) -> i < List.length dbs.
Proof.
  unfold for_configs. intros H. apply in_flat_map in H as ([j d] & J & H). apply in_flat_map in H as (c & _ & H).
  apply in_combine_l in J. apply in_seq in J. destruct (seqb _ _); [|destruct H]. destruct H as [<-|[]]. lia.
Qed.
Lemma idents_length (dbs : list DB) use : (forall i, In i use -> i < List.length dbs) ->
  List.length (flat_map (fun i => match nth_error dbs i with Some d => [db_ident d] | None => [] end) use) = List.length use.
Proof.
  induction use as [|i use IH]; intros H; [reflexivity|]. cbn [flat_map]. rewrite app_length, IH by (intros j J; apply H; now right).
  destruct (nth_error dbs i) eqn:N; [reflexivity|]. apply nth_error_None in N. specialize (H i (or_introl eq_refl)). lia.
Qed.
Definition uncheck (a b : St) : Prop := exists n, s_trace b = s_trace a ++ n /\ checks n = [].
Lemma uncheck_refl z : uncheck z z. Proof. exists []. now rewrite app_nil_r. Qed.
Lemma uncheck_trans x y z : uncheck x y -> uncheck y z -> uncheck x z.
Proof. intros (m1 & M1 & M2) (m3 & M3 & M4). exists (m1 ++ m3). rewrite checks_app, M2, M4, M3, M1, app_assoc. auto. Qed.
Lemma check_dbs_no_check k use lf : keeps uncheck (check_dbs E k use lf).
Proof.
  induction use as [|i use IHu]; cbn [check_dbs]; [apply keeps_ret, uncheck_refl|].
  apply (keeps_bind _ uncheck_trans); [apply keeps_get, uncheck_refl|]. intros ds.
  destruct (nth_error ds i) as [d|]; [|apply keeps_lift, uncheck_refl]. apply (keeps_bind _ uncheck_trans).
  { destruct d; try (apply keeps_ret, uncheck_refl). intros z. eexists [EApi _ _]. cbn. split; reflexivity. }
  intros _. apply (keeps_bind _ uncheck_trans); [apply keeps_lift, uncheck_refl|]. intros [r d'].
  apply (keeps_bind _ uncheck_trans); [intros z; exists []; cbn; now rewrite app_nil_r|]. intros _.
  destruct r as [e'|rs]; (apply (keeps_bind _ uncheck_trans); [|intros ?]); try exact IHu; [|apply keeps_ret, uncheck_refl].
  intros z. eexists. cbn. split; reflexivity.
Qed.
Lemma check_files_lacking files : o_list_pkgs O = false -> forall k exit seen s x s', check_files E O files k exit seen s = (Ok x, s') ->
  exists new, s_trace s' = s_trace s ++ new /\ (Exists lacking (checks new) -> s_errored s' = true).
Proof.
  intros L. induction files as [|f fs IH]; intros k exit seen s x s' H; cbn [check_files] in H.
  - injection H as _ <-. exists []. split; [now rewrite app_nil_r|]. intros X. inversion X.
  - step_still H. destruct K as [[n0 T0 Q0 _ _ _] _]. destruct (quiet_none _ Q0) as (A0 & _).
    destruct (l_err f) as [e|] eqn:Er.
    + step_still H. destruct K as [[n1 T1 Q1 _ _ _] _]. destruct (quiet_none _ Q1) as (A1 & _).
      apply IH in H as (new & T & X). exists (n0 ++ n1 ++ new). rewrite !checks_app, A0, A1. split; [now rewrite T, T1, T0, <- !app_assoc|exact X].
    + step H h s2 H2. injection H2 as <- <-. step H u3 s3 H3. unfold set_heap in H3. injection H3 as _ <-. set (s3 := mkSt _ _ _ _ _ _ _) in H.
      step_still H. destruct K as [[n4 T4 Q4 _ _ _] _]. destruct (quiet_none _ Q4) as (A4 & _). rewrite L in H.
      step_still H. destruct K as [[n5 T5 Q5 _ _ _] _]. destruct (quiet_none _ Q5) as (A5 & _).
      step H dbs s6 H6. injection H6 as <- <-.
      step_still H. destruct K as [[n7 T7 Q7 _ _ _] _]. destruct (quiet_none _ Q7) as (A7 & _).
      step_still H. destruct K as [[n8 T8 Q8 _ _ _] _]. destruct (quiet_none _ Q8) as (A8 & _).
      step H y s9 H9. unfold check_lockfile in H9. step H9 raw s10 Hd. step H9 rows s11 Hr. unfold lift in Hr. injection Hr as Hr <-. injection H9 as <- <-.
      pose proof (check_dbs_errored _ _ _ _ _ _ Hd) as LEN.
      pose proof (keeps_at _ _ _ _ _ (check_dbs_no_check _ _ _) Hd) as CD. unfold uncheck in CD.
      destruct CD as (n9 & T9 & A9).
      step H u12 s12 He. unfold emit in He. injection He as _ <-. set (s12 := mkSt _ _ _ _ _ _ _) in H.
      step H u13 s13 Hp.
      assert (P13 : exists n13, s_trace s13 = s_trace s12 ++ n13 /\ checks n13 = []).
      { unfold print_result, add_result, emit in Hp. destruct (o_json O); injection Hp as _ <-; [exists []; cbn; now rewrite app_nil_r|eexists; cbn; split; reflexivity]. }
      destruct P13 as (n13 & T13 & A13).
      pose proof (M_check_files fs (k + 1)) as MF. 
      assert (E13 : s_errored s13 = s_errored s10).
      { unfold print_result, add_result, emit in Hp. destruct (o_json O); injection Hp as _ <-; reflexivity. }
      pose proof H as H'. apply IH in H as (new & T & X).
      cbn [fst snd] in *.
      match type of T13 with context [s12] => idtac end.
      eexists (n0 ++ n4 ++ n5 ++ n7 ++ n8 ++ n9 ++ [_] ++ n13 ++ new). split.
      { rewrite T, T13. cbn [s_trace s12]. rewrite T9, T8, T7, T5, T4. cbn [s_trace s3]. rewrite T0, <- !app_assoc. reflexivity. }
      rewrite !checks_app, A0, A4, A5, A7, A8, A9, A13. cbn [app checks flat_map]. intros Y. inversion Y as [? ? Y1|? ? Y1]; subst; [|auto].
      destruct LEN as [LEN|LEN]; [|eapply then_errored; [apply M_check_files|exact H'|congruence]].
      exfalso. apply Y1. cbn [ck_raw ck_dbs]. rewrite idents_length; [exact LEN|]. apply for_configs_bound.
Qed.
Lemma find_all_errored s l s' : find_all_lockfiles E O s = (Ok (l, true), s') -> s_errored s' = true.
Proof.
  unfold find_all_lockfiles. destruct (seqb (o_parse_as O) parse_as_csv_row); [discriminate|].
  revert s l s'. induction (o_args O) as [|p ps IH]; intros s l s' H; cbn [find_all_loop] in H; [discriminate|].
  destruct (split_parse_as p) as [a path]. step H x s1 H1. step H y s2 H2. injection H as _ Hb ->.
  assert (MF : Mono (find_all_loop E O ps)).
  { clear. induction ps as [|q ps IH]; cbn [find_all_loop]; [mm|]. destruct (split_parse_as q). unfold find_lockfiles. mm. }
  destruct x as [l1 b1], y as [l2 b2]. cbn in Hb. destruct b1; cbn in Hb; [|subst b2; eapply IH; eauto].
  eapply then_errored; [exact MF|exact H2|]. unfold find_lockfiles in H1. destruct (e_stat E path); cbn in H1; try discriminate.
  injection H1 as _ <-. reflexivity.
Qed.
Lemma load_cfg_errored path s x s' c errs : load_cfg E path s = (x, s') ->
  load_config (w_parse_uri (e_world E)) (e_dec_yaml E) (s_files s) path = inr (c, errs) -> errs <> [] -> s_errored s' = true.
Proof.
  unfold load_cfg. intros H L N. cbn [bind emit get s_files] in H. unfold bind, emit, get in H. cbn [s_files] in H. rewrite L in H.
  destruct errs as [|e errs]; [contradiction|]. cbn [report_db_errs each] in H.
  set (m := each _ errs) in H.
  destruct (m (snd (print_error (cf_path c +s+ " contains an invalid database: " +s+ e_text E (ADbConfig (cf_path c) e) +s+ newline)
     (mkSt (s_trace s ++ [EReadConfig (clean path)]) (s_errored s) (s_results s) (s_heap s) (s_dbs s) (s_files s) (s_cache s))))) as [r s1] eqn:Q.
  assert (s_errored s1 = true). { eapply then_errored; [|exact Q|reflexivity]. unfold m. mm. }
  unfold report_db_errs in H. cbn [each] in H. fold m in H. unfold bind in H at 1. unfold print_error, set_errored, bind, emit in H, Q. cbn in H, Q. rewrite Q in H.
  destruct r; injection H as _ <-; assumption.
Qed.
Lemma find_cfg_errored dir s x s' c errs : find_cfg E dir s = (Ok x, s') ->
  find_config (w_parse_uri (e_world E)) (e_dec_yaml E) (s_files s) dir = inr (c, errs) -> errs <> [] -> s_errored s' = true.
Proof.
  unfold find_cfg, find_config. intros H L N. step H x1 s1 H1.
  pose proof H1 as H1'. apply load_cfg_spec in H1' as [K Hx]. destruct K as [[n T Q Hh Hf Hr] _].
  destruct (load_config (w_parse_uri (e_world E)) (e_dec_yaml E) (s_files s) (dir +s+ "/" +s+ ".osv-detector" +s+ ".yml")) as [[p|p|p]|[c1 e1]] eqn:L1; try discriminate; subst x1.
  - step H y s2 H2. assert (s' = s2) as -> by (destruct y as [[| |]|]; injection H as _ <-; reflexivity).
    destruct (load_config (w_parse_uri (e_world E)) (e_dec_yaml E) (s_files s) (dir +s+ "/" +s+ ".osv-detector" +s+ ".yaml")) as [[q|q|q]|[c2 e2]] eqn:L2; try discriminate.
    + injection L as _ <-. contradiction.
    + injection L as _ ->. rewrite <- Hf in L2. eapply load_cfg_errored; eauto.
  - injection L as -> ->. assert (s' = s1) as -> by (injection H as _ <-; reflexivity). eapply load_cfg_errored; eauto.
Qed.
Lemma read_all_errored paths p c errs : In p paths -> forall cfg s x s', read_all E O paths true cfg s = (Ok x, s') ->
  find_config (w_parse_uri (e_world E)) (e_dec_yaml E) (s_files s) (path_dir (snd (split_parse_as p))) = inr (c, errs) -> errs <> [] ->
  s_errored s' = true.
Proof.
  induction paths as [|q ps IH]; intros I cfg s x s' H L N; [destruct I|]. cbn [read_all] in H.
  step H y s1 H1. pose proof H1 as H1'. apply find_cfg_spec in H1' as [K _].
  assert (Hf : s_files s1 = s_files s) by (destruct K as [[n T Q Hh Hf Hr] _]; exact Hf).
  destruct I as [->|I].
  - assert (s_errored s1 = true) as Er by (eapply find_cfg_errored; eauto).
    eapply then_errored; [|exact H|exact Er]. destruct y as [e|con].
    + apply M_bind; [apply M_read_all|]. intros ?. mm.
    + unfold alloc. mm; apply M_read_all.
  - rewrite <- Hf in L. destruct y as [e|con].
    + step H r s2 H2. injection H as _ <-. eapply IH; eauto.
    + step H cfg' s2 H2. unfold alloc in H2. injection H2 as <- <-. step H z s3 H3. unfold lift in H3. injection H3 as _ <-. step H r s4 H4. injection H as _ <-.
      eapply (IH I); [exact H4| |exact N]. exact L.
Qed.
Lemma each_errored lines s r s' : existsb (fun l => has_prefix l "Error updating") lines = true ->
  each (fun line => if has_prefix line "Error updating" then print_error line else print_text O line) lines s = (r, s') -> s_errored s' = true.
Proof.
  revert s. induction lines as [|l lines IH]; intros s X H; [discriminate|]. cbn [existsb each] in *. destruct (has_prefix l "Error updating").
  - match type of H with (_ ;; ?m) _ = _ => change (m (snd (print_error l s)) = (r, s')) in H end. eapply then_errored; [|exact H|reflexivity]. mm.
  - match type of H with (_ ;; ?m) _ = _ => change (m (snd (print_text O l s)) = (r, s')) in H end. eapply IH; eauto.
Qed.
Lemma update_all_errored l p v : In (p, v) l -> e_openable E p = false -> forall s lines s', update_all E l s = (Ok lines, s') ->
  existsb (fun l => has_prefix l "Error updating") lines = true.
Proof.
  induction l as [|[q w] l IH]; intros I N s lines s' H; [destruct I|]. cbn [update_all] in H. step H line s1 H1. step H rest s2 H2. injection H as <- <-.
  cbn [existsb]. apply orb_true_iff. destruct I as [Q|I].
  - injection Q as -> ->. left. unfold update_one in H1. step H1 fs s3 H3. step H1 u s4 H4. unfold update_with_ignores in H1. rewrite N in H1. cbn [negb] in H1.
    destruct (load_raw _ _ _); injection H1 as <- _; reflexivity.
  - right. eapply IH; eauto.
Qed.
Lemma write_errored seen p v s s' (SO : SorterOk (e_sort E)) (IT : IterOk (e_iter E)) : In (p, v) seen -> e_openable E p = false ->
  write_updated_configs E O seen s = (Ok tt, s') -> s_errored s' = true.
Proof.
  intros I N H. unfold write_updated_configs in H. step H u s1 H1. step H lines s2 H2.
  eapply each_errored; [|exact H]. eapply update_all_errored in H2; [|eapply Permutation_in; [apply IT|exact I]|exact N].
  apply existsb_exists in H2 as (x & X1 & X2). apply existsb_exists. exists x. split; [|exact X2].
  eapply Permutation_in; [apply sorter_perm; exact SO|exact X1].
Qed.
End Run.
