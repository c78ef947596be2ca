(** Invariants of everything [run] does: the trace only grows, by allowed
    events, and hasErrored follows the error messages. *)
From Verif Require Import GoStr GoStrFacts GoSort Types Osv MemDB Path Api ZipDB DirDB DbConfig Configer GoMap Lockfile Csv Ecosystems Report Json Main.

Definition keeps (R : St -> St -> Prop) {A} (m : M A) : Prop := forall s, R s (snd (m s)).
Section Keeps.
Variable R : St -> St -> Prop.
Hypothesis Rrefl : forall s, R s s.
Hypothesis Rtrans : forall a b c, R a b -> R b c -> R a c.
Lemma keeps_ret {A} (a : A) : keeps R (ret a).
Proof. intros s. apply Rrefl. Qed.
Lemma keeps_lift {A} (r : res A) : keeps R (lift r).
Proof. intros s. apply Rrefl. Qed.
Lemma keeps_get {A} (f : St -> A) : keeps R (get f).
Proof. intros s. apply Rrefl. Qed.
Lemma keeps_bind {A B} (m : M A) (f : A -> M B) : keeps R m -> (forall a, keeps R (f a)) -> keeps R (bind m f).
Proof.
  intros H1 H2 s. unfold bind. specialize (H1 s). destruct (m s) as [[a|] s1]; cbn in *; [|exact H1].
  eapply Rtrans; [exact H1|apply H2].
Qed.
Lemma keeps_each {A} (f : A -> M unit) l : (forall a, In a l -> keeps R (f a)) -> keeps R (each f l).
Proof.
  induction l as [|a l IH]; intros H; cbn; [apply keeps_ret|].
  apply keeps_bind; [apply H; now left|]. intros _. apply IH. intros b Hb. apply H. now right.
Qed.
End Keeps.

(** inverting successful steps *)
Lemma bind_ok {A B} (m : M A) (f : A -> M B) s b s' :
  bind m f s = (Ok b, s') -> exists a s1, m s = (Ok a, s1) /\ f a s1 = (Ok b, s').
Proof. unfold bind. destruct (m s) as [[a|] s1]; [eauto|discriminate]. Qed.

Definition is_err (e : ev) : bool := match e with EOut KErr _ _ => true | _ => false end.
Inductive grows (P : ev -> Prop) (s s' : St) : Prop :=
| grows_intro : forall new, s_trace s' = s_trace s ++ new -> Forall P new ->
    s_errored s' = s_errored s || existsb is_err new -> grows P s s'.
Lemma grows_refl P s : grows P s s.
Proof. exists []; cbn; [now rewrite app_nil_r|constructor|now rewrite orb_false_r]. Qed.
Lemma grows_trans P a b c : grows P a b -> grows P b c -> grows P a c.
Proof.
  intros [n1 T1 F1 E1] [n2 T2 F2 E2]. exists (n1 ++ n2).
  - now rewrite T2, T1, app_assoc.
  - now apply Forall_app.
  - now rewrite E2, E1, existsb_app, orb_assoc.
Qed.
Lemma grows_same P s s' : s_trace s' = s_trace s -> s_errored s' = s_errored s -> grows P s s'.
Proof. intros H1 H2. exists []; cbn; [now rewrite app_nil_r|constructor|now rewrite orb_false_r]. Qed.

Lemma new_api_offline pu n i u b r : new_api_db pu n i u true b = inr r -> False.
Proof. unfold new_api_db. discriminate. Qed.

Section Run.
Variable E : Env.
Variable O : Opts.
(** no configs are in play *)
Definition unconfigured : bool := o_no_config O || o_list_pkgs O.
Definition no_api (ds : list DB) : Prop := forall a, ~ In (ApiD a) ds.
Definition no_paths (h : list Config) : Prop := Forall (fun c => cf_path c = "") h.
Definition Inv (s : St) : Prop :=
  (unconfigured = true -> no_paths (s_heap s)) /\ (o_offline O = true -> no_api (s_dbs s)).

(** the events a run may make *)
Variable P : ev -> Prop.
Hypothesis Perr : forall t, P (EOut KErr Stderr t).
Hypothesis Ptext : forall t, P (EOut KText (if o_json O then Stderr else Stdout) t).
Hypothesis Pres : o_json O = false -> forall t, P (EOut KRes Stdout t).
Hypothesis Pcfg : unconfigured = false -> forall p, P (EReadConfig p).
Hypothesis Pwrite : unconfigured = false -> o_update O = true -> forall p c, P (EWriteConfig p c).
Hypothesis Pload : o_list_pkgs O = false -> forall c, P (ELoad c).
Hypothesis Pfail : o_list_pkgs O = false -> forall c e, P (ELoadFailed c e).
Hypothesis Pzip : o_list_pkgs O = false -> o_offline O = false -> forall q, P (EZip q).
Hypothesis Papi : o_list_pkgs O = false -> o_offline O = false -> forall a ps, P (EApi a ps).
Hypothesis Pcheck : o_list_pkgs O = false -> forall c d i w r, P (ECheck c d i w r).

Definition R (s s' : St) : Prop := Inv s -> Inv s' /\ grows P s s'.
Lemma R_refl s : R s s.
Proof. intros H. split; [exact H|apply grows_refl]. Qed.
Lemma R_trans a b c : R a b -> R b c -> R a c.
Proof. intros H1 H2 I. destruct (H1 I) as [I1 G1]. destruct (H2 I1) as [I2 G2]. split; [exact I2|eapply grows_trans; eauto]. Qed.
Notation K := (keeps R).
Lemma K_ret {A} (a : A) : K (ret a). Proof. apply keeps_ret, R_refl. Qed.
Lemma K_lift {A} (r : res A) : K (lift r). Proof. apply keeps_lift, R_refl. Qed.
Lemma K_get {A} (f : St -> A) : K (get f). Proof. apply keeps_get, R_refl. Qed.
Lemma K_bind {A B} (m : M A) (f : A -> M B) : K m -> (forall a, K (f a)) -> K (bind m f).
Proof. apply keeps_bind, R_trans. Qed.
Lemma K_getb {A B} (f : St -> A) (g : A -> M B) : (forall s, Inv s -> K (g (f s))) -> K (bind (get f) g).
Proof. intros H s I. exact (H s I s I). Qed.
Lemma K_liftb {A B} (r : res A) (g : A -> M B) : (forall a, r = Ok a -> K (g a)) -> K (bind (lift r) g).
Proof. intros H s. unfold bind, lift. destruct r as [a|]; [now apply H|apply R_refl]. Qed.
Lemma K_bindv {A B} (m : M A) (f : A -> M B) :
  K m -> (forall a s s', Inv s -> m s = (Ok a, s') -> K (f a)) -> K (bind m f).
Proof.
  intros H1 H2 s I. unfold bind. pose proof (H1 s I) as [I1 G1]. destruct (m s) as [[a|] s1] eqn:Em; [|exact (conj I1 G1)].
  cbn [snd] in *. destruct (H2 a s s1 I Em s1 I1) as [I2 G2]. split; [exact I2|]. eapply grows_trans; eauto.
Qed.
Lemma K_each {A} (f : A -> M unit) l : (forall a, In a l -> K (f a)) -> K (each f l).
Proof. apply keeps_each; [apply R_refl|apply R_trans]. Qed.
Lemma K_emit e : P e -> is_err e = false -> K (emit e).
Proof.
  intros H N s I. split; [exact I|]. exists [e]; cbn; [reflexivity|now constructor|]. now rewrite N, !orb_false_r.
Qed.
Lemma K_same {A} (m : M A) : (forall s, s_trace (snd (m s)) = s_trace s /\ s_errored (snd (m s)) = s_errored s
    /\ s_heap (snd (m s)) = s_heap s /\ s_dbs (snd (m s)) = s_dbs s) -> K m.
Proof.
  intros H s [I1 I2]. destruct (H s) as (T & Er & Hh & Hd). split; [|now apply grows_same].
  split; [rewrite Hh|rewrite Hd]; assumption.
Qed.
Lemma K_error t : K (print_error t).
Proof.
  intros s I. split; [exact I|]. exists [EOut KErr Stderr t]; cbn; [reflexivity|constructor; auto|]. now rewrite orb_true_r.
Qed.
Lemma K_text t : K (print_text O t).
Proof. now apply K_emit. Qed.
Lemma K_result r : K (print_result E O r).
Proof. unfold print_result. case_eq (o_json O); intros J; [|apply K_emit; auto]. now apply K_same. Qed.

Ltac kk := repeat match goal with
  | |- keeps _ (bind _ _) => apply K_bind; [|intros ?]
  | |- keeps _ (ret _) => apply K_ret
  | |- keeps _ (lift _) => apply K_lift
  | |- keeps _ (get _) => apply K_get
  | |- keeps _ (print_text _ _) => apply K_text
  | |- keeps _ (print_error _) => apply K_error
  | |- keeps _ (print_result _ _ _) => apply K_result
  | |- keeps _ (each _ _) => apply K_each; intros ? ?
  | H : keeps _ ?m |- keeps _ ?m => exact H
  end.

Lemma K_find_all : K (find_all_lockfiles E O).
Proof.
  unfold find_all_lockfiles. destruct (seqb (o_parse_as O) parse_as_csv_row); [kk|].
  induction (o_args O) as [|p ps IH]; cbn [find_all_loop]; [kk|].
  destruct (split_parse_as p) as [a path]. kk. unfold find_lockfiles.
  destruct (match e_stat E path with KNoOpen => _ | _ => _ end) as [l e]. kk. destruct e; kk.
Qed.

Lemma K_load_cfg path : unconfigured = false -> K (load_cfg E path).
Proof.
  intros U. unfold load_cfg. kk; [apply K_emit; auto|].
  destruct (load_config _ _ _ _) as [e|[c errs]]; [kk|]. unfold report_db_errs. kk.
Qed.
Lemma K_find_cfg dir : unconfigured = false -> K (find_cfg E dir).
Proof.
  intros U. unfold find_cfg. apply K_bind; [now apply K_load_cfg|]. intros [[p|p|p]|c]; try kk. now apply K_load_cfg.
  destruct a as [[p'|p'|p']|c']; kk.
Qed.
Lemma K_alloc c : (unconfigured = true -> cf_path c = "") -> K (alloc c).
Proof.
  intros H s [I1 I2]. split; [|now apply grows_same]. split; [|exact I2]. cbn. intros U.
  unfold no_paths. apply Forall_app. split; [now apply I1|]. constructor; [now apply H|constructor].
Qed.
Lemma nth_no_path h i : no_paths h -> cf_path (nth i h empty_config) = "".
Proof.
  intros H. destruct (nth_in_or_default i h empty_config) as [I| ->]; [|reflexivity].
  eapply Forall_forall in H; eauto.
Qed.
Lemma upd_no_paths h i c : no_paths h -> cf_path c = "" -> no_paths (upd h i c).
Proof.
  intros H Hc. revert i. induction H as [|x h Hx H IH]; intros [|i]; cbn; constructor; auto. apply IH.
Qed.
Lemma K_read_all paths cl : unconfigured = false \/ cl = false -> forall cfg, K (read_all E O paths cl cfg).
Proof.
  intros U. induction paths as [|p ps IH]; intros cfg; cbn [read_all]; [kk|].
  assert (Fin : forall config, K (x <- lift (parse_lockfile E O p); rest <- read_all E O ps cl config; ret (mkLFile (fst x) config (snd x) :: rest)))
    by (intros config; kk; apply IH).
  destruct cl.
  - destruct U as [U|]; [|discriminate]. apply K_bind; [now apply K_find_cfg|]. intros [e|con].
    + kk. apply IH.
    + apply K_bind; [apply K_alloc; congruence|]. auto.
  - intros s I. cbn. destruct (seqb (cf_path (nth cfg (s_heap s) empty_config)) "") eqn:Q.
    + apply (Fin cfg s I).
    + assert (U' : unconfigured = false).
      { destruct unconfigured eqn:U'; [|reflexivity]. apply seqb_neq in Q. exfalso. apply Q, nth_no_path, I, U'. }
      cbn. revert s I Q. intros s I Q.
      apply (K_bind (alloc (nth cfg (s_heap s) empty_config)) _ (K_alloc _ ltac:(congruence)) Fin s I).
Qed.

Lemma K_adjust files : K (adjust_all E O files).
Proof.
  unfold adjust_all. apply K_each. intros f _. unfold adjust_one. destruct (l_err f); [kk|].
  intros s [I1 I2]. cbn. split; [|now apply grows_same]. split; [|exact I2]. cbn. intros U. apply upd_no_paths; [auto|].
  cbn. now apply nth_no_path, I1.
Qed.

Lemma K_set_cache c : K (set_cache c). Proof. now apply K_same. Qed.
Lemma K_load_err e : K (print_load_err E e). Proof. unfold print_load_err. kk. Qed.
Lemma offline_load W cache c batch names r w reqs : load_db W cache c true batch names = (r, w, reqs) ->
  reqs = [] /\ forall a, r <> Ok (inr (ApiD a)).
Proof.
  unfold load_db. destruct (seqb (dc_type c) "zip").
  - destruct (zip_load _ _ _ _ _ _ _ _) as [[r' w'] reqs'] eqn:Z. intros H. injection H as <- <- <-.
    unfold zip_load in Z. injection Z as <- <- <-. unfold fetch_zip.
    destruct (match cache with Some _ => _ | None => _ end) as [c0|]; cbn; (split; [reflexivity|]); intros a; [|discriminate].
    destruct (w_unzip W (bytes (c_body c0))); discriminate.
  - destruct (seqb (dc_type c) "api"); [|destruct (seqb (dc_type c) "dir")]; intros H; injection H as <- <- <-.
    + split; [reflexivity|]. intros a. cbn. discriminate.
    + split; [reflexivity|]. intros a. destruct (dir_load _ _ _ _ _ _); discriminate.
    + split; [reflexivity|discriminate].
Qed.
Lemma K_load_loop names cs : o_list_pkgs O = false -> K (load_loop E O cs names).
Proof.
  intros L. induction cs as [|c cs IH]; cbn [load_loop]; [kk|].
  kk; [apply K_emit; auto|].
  destruct (load_db _ _ _ _ _ _) as [[r w] reqs] eqn:D. kk.
  - apply K_emit; [|reflexivity]. case_eq (o_offline O); intros F; [|auto].
    rewrite F in D; apply offline_load in D as [-> _]. contradiction.
  - apply K_set_cache.
  - match goal with x : (load_err + DB)%type |- _ => destruct x as [e|db] end; kk; [apply K_emit; auto|apply K_load_err].
Qed.
Lemma load_loop_no_api names cs : o_offline O = true -> forall s ds b s', load_loop E O cs names s = (Ok (ds, b), s') -> no_api ds.
Proof.
  intros F. induction cs as [|c cs IH]; intros s ds b s' H; cbn [load_loop] in H.
  - injection H as <- _ _. intros a [].
  - apply bind_ok in H as (? & s1 & _ & H). apply bind_ok in H as (? & s2 & _ & H). apply bind_ok in H as (cache & s3 & _ & H).
    destruct (load_db _ _ _ _ _ _) as [[r w] reqs] eqn:D. rewrite F in D. apply offline_load in D as [_ D].
    apply bind_ok in H as (? & s4 & _ & H). apply bind_ok in H as (? & s5 & _ & H). apply bind_ok in H as (y & s6 & Hy & H).
    unfold lift in Hy. injection Hy as -> _. destruct y as [e|db].
    + apply bind_ok in H as (? & s7 & _ & H). apply bind_ok in H as (? & s8 & _ & H). apply bind_ok in H as ([ds' b'] & s9 & Hl & H).
      injection H as <- _ _. eapply IH; eauto.
    + apply bind_ok in H as (? & s7 & _ & H). apply bind_ok in H as ([ds' b'] & s9 & Hl & H).
      injection H as <- _ _. intros a [->|I]; [now apply (D a)|]. eapply (IH _ _ _ _ Hl); eauto.
Qed.

Lemma upd_in {A} (l : list A) i a x : In x (upd l i a) -> x = a \/ In x l.
Proof.
  revert i. induction l as [|y l IH]; intros [|i]; cbn; auto; intros [->|H]; auto. apply IH in H as [->|H]; auto.
Qed.
Lemma check_db_api k d ps r d' : check_db E k d ps = Ok (r, d') -> (exists a, d' = ApiD a) -> d' = d.
Proof.
  unfold check_db. destruct d as [n i db date|a|n i db].
  - destruct (check _ _ _ _) as [[r' db']|]; cbn; [|discriminate]. intros H (a & ->). injection H. discriminate.
  - destruct (e_api E k a ps); cbn; [|discriminate]. intros H _. now injection H.
  - destruct (check _ _ _ _) as [[r' db']|]; cbn; [|discriminate]. intros H (a & ->). injection H. discriminate.
Qed.
Lemma K_check_dbs lf dbs : o_list_pkgs O = false -> forall k, K (check_dbs E k dbs lf).
Proof.
  intros L kk. induction dbs as [|i dbs IH]; cbn [check_dbs]; [kk|].
  apply K_getb. intros s I. destruct (nth_error (s_dbs s) i) as [d|] eqn:N; [|kk].
  apply K_bind.
  { destruct d as [n j db date|a|n j db]; [kk| |kk]. apply K_emit; [|reflexivity].
    case_eq (o_offline O); intros F; [|auto]. exfalso. apply nth_error_In in N. now apply (proj2 I F a). }
  intros _. apply K_liftb. intros [r d'] C. apply K_bind; [|intros _; destruct r; kk].
  intros t [T1 T2]. cbn. split; [|now apply grows_same]. split; [exact T1|]. cbn. intros F a Ha.
  apply upd_in in Ha as [Ha|Ha]; [|now apply (proj2 I F a)]. assert (d' = d) by (apply (check_db_api kk d _ r d' C); eauto).
  apply nth_error_In in N. apply (proj2 I F a). congruence.
Qed.
Lemma K_update_all l : unconfigured = false -> o_update O = true -> K (update_all E l).
Proof.
  intros U Up. induction l as [|[path vs] l IH]; cbn [update_all]; [kk|]. kk. unfold update_one.
  kk; [apply K_emit; auto|]. destruct (update_with_ignores _ _ _ _ _ _); [kk|]. kk; [apply K_emit; auto|now apply K_same].
Qed.
Lemma K_write seen : o_update O = true -> (unconfigured = true -> e_iter E _ seen = []) -> K (write_updated_configs E O seen).
Proof.
  intros Up H. unfold write_updated_configs.
  kk; [destruct (negb _); kk| |destruct (has_prefix _ _); kk].
  case_eq unconfigured; intros U; [rewrite H by exact U; cbn [update_all]; kk|now apply K_update_all].
Qed.

Lemma K_check_files files : forall k exit seen, K (check_files E O files k exit seen).
Proof.
  induction files as [|f fs IH]; intros k exit seen; cbn [check_files]; [kk|].
  kk; [destruct (Nat.leb 1 k); kk|]. destruct (l_err f) as [e|]; [kk; apply IH|].
  apply K_getb. intros s I. set (c := if o_no_ignores O then _ else _).
  apply K_bind.
  { intros t [T1 T2]. cbn. split; [|now apply grows_same]. split; [|exact T2]. cbn. intros U.
    apply upd_no_paths; [now apply I|]. pose proof (nth_no_path (s_heap s) (l_cfg f) (proj1 I U)) as N.
    unfold c. destruct (o_no_ignores O); exact N. }
  intros _. kk.
  case_eq (o_list_pkgs O); intros L; [kk; apply IH|].
  kk; try apply IH.
  - destruct (negb _); kk.
  - destruct (nth_error _ _); kk.
  - unfold check_lockfile. kk. now apply K_check_dbs.
  - apply K_emit; auto.
Qed.

(** ** values computed along the way *)
Definition gives {A} (m : M A) (Q : A -> Prop) : Prop := forall s, Inv s -> forall a s', m s = (Ok a, s') -> Q a.
Lemma gives_bind {A B} (m : M A) (f : A -> M B) Q : K m -> (forall a, gives (f a) Q) -> gives (bind m f) Q.
Proof.
  intros Hm Hf s I b s' H. apply bind_ok in H as (a & s1 & H1 & H2). apply (Hf a s1) with (2 := H2).
  specialize (Hm s I). rewrite H1 in Hm. apply Hm.
Qed.
Lemma gives_getb {A B} (f : St -> A) (g : A -> M B) Q : (forall s, Inv s -> gives (g (f s)) Q) -> gives (bind (get f) g) Q.
Proof. intros H s I b s' E0. exact (H s I s I b s' E0). Qed.
Lemma gives_ret {A} (a : A) (Q : A -> Prop) : Q a -> gives (ret a) Q.
Proof. intros H s _ b s' E0. injection E0 as <- _. exact H. Qed.
(** without configs no IDs are collected *)
Lemma check_files_seen files : unconfigured = true -> forall k exit seen,
  gives (check_files E O files k exit seen) (fun x => snd x = seen).
Proof.
  intros U. induction files as [|f fs IH]; intros k exit seen; cbn [check_files].
  - now apply gives_ret.
  - apply gives_bind; [destruct (Nat.leb 1 k); kk|]. intros _.
    destruct (l_err f) as [e|]; [apply gives_bind; [kk|]; intros _; apply IH|].
    apply gives_getb. intros s I.
    pose proof (nth_no_path (s_heap s) (l_cfg f) (proj1 I U)) as N.
    set (c := if o_no_ignores O then _ else _).
    assert (Pc : cf_path c = "") by (unfold c; destruct (o_no_ignores O); exact N).
    apply gives_bind.
    { intros t [T1 T2]. cbn. split; [|now apply grows_same]. split; [|exact T2]. cbn. intros _.
      apply upd_no_paths; [now apply I|exact Pc]. }
    intros _. apply gives_bind; [kk|]. intros _.
    case_eq (o_list_pkgs O); intros L; [apply gives_bind; [kk|]; intros _; apply IH|].
    apply gives_bind; [destruct (negb _); kk|]. intros _.
    apply gives_bind; [kk|]. intros dbs.
    apply gives_bind; [kk; destruct (nth_error _ _); kk|]. intros _.
    apply gives_bind; [kk|]. intros _.
    apply gives_bind; [unfold check_lockfile; kk; now apply K_check_dbs|]. intros x.
    apply gives_bind; [apply K_emit; auto|]. intros _. apply gives_bind; [kk|]. intros _.
    rewrite Pc. cbn. rewrite andb_false_r. apply IH.
Qed.

Hypothesis IT : IterOk (e_iter E).
Lemma K_run_files paths cl cfg : unconfigured = false \/ cl = false -> K (run_files E O paths cl cfg).
Proof.
  intros U. unfold run_files. apply K_bind; [now apply K_read_all|]. intros files.
  apply K_bind; [apply K_adjust|]. intros _. apply K_bind; [kk|]. intros h.
  set (cs := unique_db_configs _). set (ns := all_names E files).
  assert (KL : K (load_databases E O cs ns)).
  { unfold load_databases. case_eq (o_list_pkgs O); intros L; kk. now apply K_load_loop. }
  apply K_bindv; [exact KL|]. intros [ds b] s s1 I Ld. cbn [fst snd].
  apply K_bind.
  { intros t [T1 T2]. cbn. split; [|now apply grows_same]. split; [exact T1|]. cbn.
    intros F. unfold load_databases in Ld. destruct (o_list_pkgs O); [injection Ld as <- _ _; intros a []|].
    apply bind_ok in Ld as (? & ? & _ & Ld). apply bind_ok in Ld as (? & ? & Hl & Ld). apply bind_ok in Ld as (? & ? & _ & Ld).
    injection Ld as -> _. eapply load_loop_no_api; eauto. }
  intros _. apply K_bindv; [apply K_check_files|]. intros [x seen] t t1 It Cf. cbn [fst snd]. kk.
  case_eq (o_update O); intros Up; [|kk]. apply K_write; [exact Up|]. intros Un.
  replace seen with (@nil (string * list string)) by (symmetry; exact (check_files_seen files Un 0 _ [] t It _ _ Cf)).
  apply Permutation_nil, IT.
Qed.
Lemma K_run_body : K (run_body E O).
Proof.
  unfold run_body. destruct (o_version O); [kk|]. destruct (o_list_eco O); [unfold print_known_ecosystems; kk|].
  destruct (negb (known_parse_as (o_parse_as O))); [kk|].
  apply K_bind; [apply K_find_all|]. intros x. destruct (Nat.eqb _ _); [kk|].
  unfold run_config. case_eq (o_list_pkgs O); intros L.
  - apply K_bind; [now apply K_alloc|]. intros c. apply K_run_files. now right.
  - case_eq (o_no_config O); intros N; cbn [negb andb].
    + apply K_bind; [now apply K_alloc|]. intros c. apply K_run_files. now right.
    + assert (U : unconfigured = false) by (unfold unconfigured; now rewrite L, N).
      destruct (negb (seqb (o_config O) "")).
      * apply K_bind; [now apply K_load_cfg|]. intros [e|con]; [kk|].
        apply K_bind; [apply K_alloc; congruence|]. intros c. apply K_run_files. now left.
      * apply K_bind; [now apply K_alloc|]. intros c. apply K_run_files. now left.
Qed.
(** everything a run does before the deferred output of the results *)
Lemma run_body_grows fs cache : grows P (start fs cache) (snd (run_body E O (start fs cache))).
Proof. apply K_run_body. split; intros _; [constructor|intros a []]. Qed.
End Run.
