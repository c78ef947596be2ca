From Coq Require Import Lia.
From Verif Require Import GoStr GoStrFacts GoSort GoSortFacts Types Json Osv MemDB Path Api ZipDB DirDB DbConfig Configer GoMap Lockfile Csv Ecosystems Report Main MainSpec MainProofs ConfigProofs PathFacts ClearSpec.

Section Clear.
Variable E : Env.
Variable O : Opts.
Variable ni nd : bool.
Notation E' := (cleared E ni nd).
Notation O1 := (with_skips O ni nd).
Notation O2 := (with_skips O false false).
Hypothesis Hupd : o_update O = true -> nd = false.

(** configs before and after databases are added; [b]: they were *)
Definition pair_cfg (b : bool) (c c' : Config) : Prop :=
  cf_path c' = cf_path c /\ cf_ignore c' = (if ni then [] else cf_ignore c) /\ cf_dbs c' = (if nd && negb b then [] else cf_dbs c).
Lemma pair_empty b : pair_cfg b empty_config empty_config.
Proof. repeat split; cbn; [now destruct ni|now destruct (nd && negb b)]. Qed.
Record base (s s' : St) : Prop := mkBase {
  b_trace : Forall2 (alike E ni) (s_trace s) (s_trace s');
  b_err : s_errored s = s_errored s';
  b_res : s_results s = s_results s';
  b_dbs : s_dbs s = s_dbs s';
  b_files : s_files s = s_files s';
  b_cache : s_cache s = s_cache s' }.
Definition heaps (D : nat -> bool) (h h' : list Config) : Prop :=
  List.length h = List.length h' /\ forall i, pair_cfg (D i) (nth i h empty_config) (nth i h' empty_config).
Definition rel (D : nat -> bool) (s s' : St) : Prop := base s s' /\ heaps D (s_heap s) (s_heap s').
Definition jr {A B} (D D' : nat -> bool) (RA : A -> B -> Prop) (m : M A) (m' : M B) : Prop := forall s s', rel D s s' ->
  match m s, m' s' with
  | (Ok a, s1), (Ok a', s1') => RA a a' /\ rel D' s1 s1'
  | (Panic, s1), (Panic, s1') => base s1 s1'
  | _, _ => False
  end.
Lemma jr_bind {A A' B B'} D D1 D2 (RA : A -> A' -> Prop) (RB : B -> B' -> Prop) m m' f f' :
  jr D D1 RA m m' -> (forall a a', RA a a' -> jr D1 D2 RB (f a) (f' a')) -> jr D D2 RB (bind m f) (bind m' f').
Proof.
  intros H K s s' L. specialize (H s s' L). unfold bind. destruct (m s) as [[a|] s1], (m' s') as [[a'|] s1']; try contradiction; auto.
  destruct H as [H1 H2]. exact (K a a' H1 s1 s1' H2).
Qed.
Lemma jr_eq {A B B'} D D1 D2 (RB : B -> B' -> Prop) (m m' : M A) f f' : jr D D1 eq m m' -> (forall a, jr D1 D2 RB (f a) (f' a)) -> jr D D2 RB (bind m f) (bind m' f').
Proof. intros H K. eapply jr_bind; [exact H|]. now intros a a' <-. Qed.
Lemma jr_ret {A A'} D (RA : A -> A' -> Prop) a a' : RA a a' -> jr D D RA (ret a) (ret a').
Proof. intros H s s' L. cbn. auto. Qed.
Lemma jr_lift {A} D (r : res A) : jr D D eq (lift r) (lift r).
Proof. intros s s' L. cbn. destruct r; [auto|apply L]. Qed.
Lemma jr_each {A} D (f f' : A -> M unit) l : (forall a, jr D D eq (f a) (f' a)) -> jr D D eq (each f l) (each f' l).
Proof. intros H. induction l as [|a l IH]; cbn [each]; [now apply jr_ret|]. eapply jr_eq; [apply H|]. auto. Qed.
Lemma base_emit e e' s s' : alike E ni e e' -> base s s' -> base (snd (emit e s)) (snd (emit e' s')).
Proof. intros A []. constructor; cbn; auto. apply Forall2_app; auto. Qed.
Lemma jr_emits D e e' : alike E ni e e' -> jr D D eq (emit e) (emit e').
Proof. intros A s s' [B H]. cbn. split; [reflexivity|]. split; [exact (base_emit e e' s s' A B)|exact H]. Qed.
Lemma jr_emit D e : jr D D eq (emit e) (emit e). Proof. apply jr_emits. constructor. Qed.
Lemma jr_error D t : jr D D eq (print_error t) (print_error t).
Proof. unfold print_error. eapply jr_eq; [|intros _; apply jr_emit]. intros s s' [[] H]. cbn. split; [reflexivity|]. split; [now constructor|exact H]. Qed.
Lemma jr_texts D t t' : (forall st, alike E ni (EOut KText st t) (EOut KText st t')) -> jr D D eq (print_text O1 t) (print_text O2 t').
Proof. intros A. unfold print_text. change (o_json O2) with (o_json O1). destruct (o_json O1); apply jr_emits, A. Qed.
Lemma jr_text D t : jr D D eq (print_text O1 t) (print_text O2 t). Proof. apply jr_texts. constructor. Qed.
Lemma jr_result D r : jr D D eq (print_result E O1 r) (print_result E' O2 r).
Proof.
  unfold print_result. change (o_json O2) with (o_json O1). change (e_col E') with (e_col E). destruct (o_json O1); [|apply jr_emit].
  intros s s' [[] H]. cbn. split; [reflexivity|]. split; [constructor; cbn; auto; congruence|exact H].
Qed.
Lemma jr_get {A} D (f : St -> A) : (forall s s', base s s' -> f s = f s') -> jr D D eq (get f) (get f).
Proof. intros H s s' L. cbn. split; [apply H, L|exact L]. Qed.
Lemma jr_heap D : jr D D (heaps D) (get s_heap) (get s_heap).
Proof. intros s s' L. cbn. split; [apply L|exact L]. Qed.
Lemma jr_set_heap D D' h h' : heaps D' h h' -> jr D D' eq (set_heap h) (set_heap h').
Proof. intros H s s' [[] _]. cbn. split; [reflexivity|]. split; [now constructor|exact H]. Qed.
Lemma jr_set_dbs D d : jr D D eq (set_dbs d) (set_dbs d).
Proof. intros s s' [[] H]. cbn. split; [reflexivity|]. split; [now constructor|exact H]. Qed.
Lemma jr_set_files D d : jr D D eq (set_files d) (set_files d).
Proof. intros s s' [[] H]. cbn. split; [reflexivity|]. split; [now constructor|exact H]. Qed.
Lemma jr_set_cache D d : jr D D eq (set_cache d) (set_cache d).
Proof. intros s s' [[] H]. cbn. split; [reflexivity|]. split; [now constructor|exact H]. Qed.
Ltac jj := repeat (cbv zeta; match goal with
  | H : jr _ _ _ ?m ?n |- jr _ _ _ ?m ?n => exact H
  | |- jr _ _ _ (bind (get s_heap) _) _ => fail 1
  | |- jr _ _ _ (bind _ _) (bind _ _) => eapply jr_eq; [|intros ?]
  | |- jr _ _ _ (ret _) (ret _) => apply jr_ret; reflexivity
  | |- jr _ _ _ (lift _) (lift _) => apply jr_lift
  | |- jr _ _ _ (each _ _) (each _ _) => apply jr_each; intros ?
  | |- jr _ _ _ (emit _) (emit _) => apply jr_emit
  | |- jr _ _ _ (print_error _) (print_error _) => apply jr_error
  | |- jr _ _ _ (print_text _ _) (print_text _ _) => apply jr_text
  | |- jr _ _ _ (print_result _ _ _) (print_result _ _ _) => apply jr_result
  | |- jr _ _ _ (set_dbs _) (set_dbs _) => apply jr_set_dbs
  | |- jr _ _ _ (set_files _) (set_files _) => apply jr_set_files
  | |- jr _ _ _ (set_cache _) (set_cache _) => apply jr_set_cache
  | |- jr _ _ _ (get _) (get _) => apply jr_get; intros ? ? []; assumption
  | H : forall _, jr _ _ _ _ _ |- _ => solve [apply H]
  | H : forall _ _, jr _ _ _ _ _ |- _ => solve [apply H]
  | H : forall _ _ _, jr _ _ _ _ _ |- _ => solve [apply H]
  | |- jr _ _ _ (if ?b then _ else _) (if ?b then _ else _) => destruct b
  | |- jr _ _ _ (if ?b then _ else _) (if ?c then _ else _) => change c with b; destruct b
  | |- jr _ _ _ (let '(_, _) := ?b in _) (let '(_, _) := ?b in _) => destruct b
  | |- jr _ _ _ (match ?b with _ => _ end) (match ?b with _ => _ end) => destruct b
  end).

(** ** databases *)
Lemma jr_load_err D e : jr D D eq (print_load_err E e) (print_load_err E' e).
Proof. unfold print_load_err. change (e_text E') with (e_text E). change (e_col E') with (e_col E). jj. Qed.
Lemma jr_load_loop D names : forall configs, jr D D eq (load_loop E O1 configs names) (load_loop E' O2 configs names).
Proof.
  pose proof (jr_load_err D). induction configs as [|c configs IH]; cbn [load_loop]; [jj|].
  change (e_cache_path E') with (e_cache_path E). change (e_world E') with (e_world E). change (o_offline O2) with (o_offline O1). change (o_batch O2) with (o_batch O1). change (e_col E') with (e_col E). jj.
Qed.
Lemma jr_load D configs names : jr D D eq (load_databases E O1 configs names) (load_databases E' O2 configs names).
Proof. unfold load_databases. change (o_list_pkgs O2) with (o_list_pkgs O1). pose proof (jr_load_loop D names). jj. Qed.

(** ** configs *)
Lemma invalid_configs pu l : to_configs pu (filter (invalid pu) l) = ([], snd (to_configs pu l)).
Proof.
  induction l as [|r l IH]; [reflexivity|]. cbn [filter to_configs]. unfold invalid at 1. destruct (to_configs pu l) as [cs es]. cbn [snd] in IH.
  destruct (to_config pu r) eqn:T; [|exact IH]. cbn [to_configs]. now rewrite IH, T.
Qed.
Definition both {A B} (R : B -> B -> Prop) (x x' : A + B) : Prop :=
  match x, x' with inl a, inl a' => a = a' | inr b, inr b' => R b b' | _, _ => False end.
Lemma load_config_clear fs path : both (fun a b => pair_cfg false (fst a) (fst b) /\ snd a = snd b)
  (load_config (w_parse_uri (e_world E)) (e_dec_yaml E) fs path) (load_config (w_parse_uri (e_world E)) (e_dec_yaml E') fs path).
Proof.
  unfold load_config, load_raw. destruct (fs (clean path)) as [t| |]; cbn; auto. destruct (e_dec_yaml E t) as [rc|]; cbn; auto.
  destruct nd eqn:N.
  - rewrite invalid_configs. destruct (to_configs _ (rc_dbs rc)) as [cs es]. cbn. repeat split; cbn. now rewrite N.
  - destruct (to_configs _ (rc_dbs rc)) as [cs es]. cbn. repeat split; cbn. now rewrite N.
Qed.
Definition none : nat -> bool := fun _ => false.
Lemma jr_load_cfg D path : jr D D (both (pair_cfg false)) (load_cfg E path) (load_cfg E' path).
Proof.
  unfold load_cfg, report_db_errs. eapply jr_eq; [apply jr_emit|]. intros _. eapply jr_eq; [apply jr_get; intros ? ? []; assumption|]. intros fs.
  change (e_world E') with (e_world E). change (e_text E') with (e_text E). pose proof (load_config_clear fs path) as H.
  destruct (load_config _ (e_dec_yaml E) fs path) as [e|[c es]], (load_config _ (e_dec_yaml E') fs path) as [e'|[c' es']]; cbn in H; try contradiction.
  - apply jr_ret. exact H.
  - destruct H as [P <-]. cbn [fst] in P. pose proof P as (Q & _). rewrite Q. eapply jr_eq; [jj|]. intros _. apply jr_ret. exact P.
Qed.
Lemma jr_find_cfg D dir : jr D D (both (pair_cfg false)) (find_cfg E dir) (find_cfg E' dir).
Proof.
  unfold find_cfg. eapply jr_bind; [apply jr_load_cfg|]. intros x x' H. destruct x as [e|c], x' as [e'|c']; try contradiction.
  - cbn in H. subst e'. destruct e; try (now apply jr_ret). eapply jr_bind; [apply jr_load_cfg|]. intros y y' K. destruct y as [e|c], y' as [e'|c']; try contradiction.
    + cbn in K. subst e'. destruct e; try (now apply jr_ret). apply jr_ret. apply pair_empty.
    + now apply jr_ret.
  - now apply jr_ret.
Qed.
Lemma jr_alloc c c' : pair_cfg false c c' -> jr none none eq (alloc c) (alloc c').
Proof.
  intros P. unfold alloc. eapply jr_bind; [apply jr_heap|]. intros h h' [L H]. eapply jr_eq; [apply jr_set_heap|intros _; now apply jr_ret].
  split; [rewrite !app_length; cbn; lia|]. intros i. destruct (Nat.lt_total i (List.length h)) as [T|[->|T]].
  - rewrite !app_nth1 by lia. apply H.
  - rewrite nth_middle. rewrite L, nth_middle. exact P.
  - rewrite !nth_overflow by (rewrite app_length; cbn; lia). apply pair_empty.
Qed.
Lemma jr_load_at i : jr none none (pair_cfg false) (load_at i) (load_at i).
Proof. unfold load_at. eapply jr_bind; [apply jr_heap|]. intros h h' [_ H]. apply jr_ret. apply (H i). Qed.
Lemma jr_read : forall paths cl cfg, jr none none eq (read_all E O1 paths cl cfg) (read_all E' O2 paths cl cfg).
Proof.
  induction paths as [|p ps IH]; intros cl cfg; cbn [read_all]; [jj|]. change (parse_lockfile E' O2 p) with (parse_lockfile E O1 p).
  cbv zeta. destruct cl.
  - eapply jr_bind; [apply jr_find_cfg|]. intros x x' H. destruct x as [e|c], x' as [e'|c']; try contradiction.
    + cbn in H. subst e'. jj.
    + eapply jr_eq; [now apply jr_alloc|]. intros a. jj.
  - eapply jr_bind; [apply jr_load_at|]. intros c c' P. pose proof P as (Q & _). rewrite Q. destruct (negb _); [|jj].
    eapply jr_eq; [now apply jr_alloc|]. intros a. jj.
Qed.

(** ** their databases *)
Definition adding (D : nat -> bool) (i : nat) : nat -> bool := fun j => Nat.eqb j i || D j.
Definition fresh (D : nat -> bool) (i : nat) : Prop := nd = true -> D i = false.
Lemma heaps_upd D h h' i c c' : heaps D h h' -> (i < List.length h -> pair_cfg true c c') -> (forall j, nth j h empty_config = empty_config -> nth j h' empty_config = empty_config -> True) ->
  heaps (adding D i) (upd h i c) (upd h' i c').
Proof.
  intros [L H] P _. split; [now rewrite !upd_length|]. intros j. unfold adding. destruct (Nat.eqb_spec j i) as [->|N]; cbn [orb].
  - destruct (Nat.lt_ge_cases i (List.length h)) as [T|T].
    + rewrite !nth_upd_same by lia. auto.
    + rewrite !nth_overflow by (rewrite upd_length; lia). apply pair_empty.
  - rewrite !nth_upd_other by auto. apply H.
Qed.
Lemma jr_adjust_one D f : l_err f = None -> fresh D (l_cfg f) -> jr D (adding D (l_cfg f)) eq (adjust_one E O1 f) (adjust_one E' O2 f).
Proof.
  intros Er F. unfold adjust_one. rewrite Er. eapply jr_bind; [apply jr_heap|]. intros h h' [L H]. apply jr_set_heap. apply heaps_upd; [now split| |auto].
  intros _. destruct (H (l_cfg f)) as (P1 & P2 & P3). repeat split; cbn [cf_path cf_ignore cf_dbs]; auto. rewrite andb_false_r.
  change (collect_ecosystems E' [f]) with (collect_ecosystems E [f]). cbn [with_skips o_no_dbs o_use_api o_use_dbs]. rewrite P3. unfold fresh in F.
  destruct nd; cbn; [|reflexivity]. now rewrite F.
Qed.
Definition all_of (D : nat -> bool) (fl : list LFile) : nat -> bool := fun j => existsb (fun f => Nat.eqb j (l_cfg f)) (goods fl) || D j.
Lemma rel_ext D D' s s' : (forall i, D i = D' i) -> rel D s s' -> rel D' s s'.
Proof. intros Q [B [L H]]. split; [exact B|]. split; [exact L|]. intros i. rewrite <- Q. apply H. Qed.
Lemma jr_adjust : forall fl D, (nd = true -> NoDup (map l_cfg (goods fl)) /\ Forall (fun f => D (l_cfg f) = false) (goods fl)) ->
  jr D (all_of D fl) eq (adjust_all E O1 fl) (adjust_all E' O2 fl).
Proof.
  induction fl as [|f fl IH]; intros D H; unfold adjust_all; cbn [each].
  - intros s s' L. cbn. split; [reflexivity|]. exact L.
  - destruct (l_err f) eqn:Er.
    + assert (G : goods (f :: fl) = goods fl) by (unfold goods; cbn [filter]; now rewrite Er). unfold all_of. rewrite G in *.
      eapply jr_eq; [|intros _; apply (IH D H)]. unfold adjust_one. rewrite Er. now apply jr_ret.
    + assert (G : goods (f :: fl) = f :: goods fl) by (unfold goods; cbn [filter]; now rewrite Er). rewrite G in H.
      eapply jr_eq; [apply jr_adjust_one; [exact Er|]|].
      * intros N. destruct (H N) as [_ F]. now inversion F.
      * intros _. assert (K : jr (adding D (l_cfg f)) (all_of (adding D (l_cfg f)) fl) eq (adjust_all E O1 fl) (adjust_all E' O2 fl)).
        { apply IH. intros N. destruct (H N) as [ND F]. inversion ND; inversion F; subst. split; [assumption|]. apply Forall_forall. intros g I.
          unfold adding. destruct (Nat.eqb_spec (l_cfg g) (l_cfg f)) as [Q|_]; [exfalso; rewrite <- Q in *; auto using in_map|]. cbn.
          eapply Forall_forall in I; [|eassumption]. exact I. }
        intros s s' L. specialize (K s s' L). fold (adjust_all E O1 fl). fold (adjust_all E' O2 fl).
        destruct (adjust_all E O1 fl s) as [[a|] s1], (adjust_all E' O2 fl s') as [[a'|] s1']; try contradiction; auto.
        destruct K as [K1 K2]. split; [exact K1|]. eapply rel_ext; [|exact K2]. intros i. unfold all_of, adding. rewrite G. cbn [existsb].
        destruct (existsb _ _), (Nat.eqb i (l_cfg f)), (D i); reflexivity.
Qed.
(** every file that can be checked has its databases *)
Definition ready (D : nat -> bool) (fl : list LFile) : Prop := Forall (fun f => nd && negb (D (l_cfg f)) = false) (goods fl).
Lemma ready_all D fl : ready (all_of D fl) fl.
Proof.
  apply Forall_forall. intros f I. unfold all_of. replace (existsb _ (goods fl)) with true; [cbn; apply andb_false_r|]. symmetry. apply existsb_exists. exists f. split; [exact I|apply Nat.eqb_refl].
Qed.
Lemma configs_dbs D h h' : heaps D h h' -> forall fl, ready D fl -> map cf_dbs (get_configs h fl) = map cf_dbs (get_configs h' fl).
Proof.
  intros [_ H]. induction fl as [|f fl IH]; intros R; [reflexivity|]. unfold ready, goods in *. cbn [filter] in R. unfold get_configs in *. cbn [flat_map].
  destruct (l_err f); [exact (IH R)|]. inversion R; subst. cbn [app map]. rewrite IH by assumption. f_equal. destruct (H (l_cfg f)) as (_ & _ & P). rewrite P. now replace (nd && negb (D (l_cfg f))) with false.
Qed.

(** ** checking *)
Lemma jr_check D k dbs lockf ign : jr D D eq (check_lockfile E k dbs lockf ign) (check_lockfile E' k dbs lockf ign).
Proof.
  assert (H : forall dbs, jr D D eq (check_dbs E k dbs lockf) (check_dbs E' k dbs lockf)).
  { induction dbs0 as [|i l IH]; cbn [check_dbs]; [jj|]. eapply jr_eq; [apply jr_get; intros ? ? []; assumption|]. intros ds. destruct (nth_error ds i) as [d|]; [|apply jr_lift].
    change (check_db E' k d (lf_pkgs lockf)) with (check_db E k d (lf_pkgs lockf)). change (e_text E') with (e_text E). jj. }
  unfold check_lockfile. jj.
Qed.
Lemma jr_check_files D : forall fl k exit seen, ready D fl -> jr D D eq (check_files E O1 fl k exit seen) (check_files E' O2 fl k exit seen).
Proof.
  assert (K : forall k dbs lockf ign, jr D D eq (check_lockfile E k dbs lockf ign) (check_lockfile E' k dbs lockf ign)) by exact (jr_check D).
  induction fl as [|f fl IH]; intros k exit seen R; cbn [check_files]; [jj|]. change (e_col E') with (e_col E). change (e_text E') with (e_text E).
  eapply jr_eq; [jj|]. intros _. unfold ready, goods in R. cbn [filter] in R. destruct (l_err f) eqn:Er.
  - eapply jr_eq; [jj|]. intros _. apply IH. exact R.
  - inversion R as [|? ? R1 R2]; subst. fold (goods fl) in R2. cbv zeta. eapply jr_bind; [apply jr_heap|]. intros h h' [L H]. destruct (H (l_cfg f)) as (P1 & P2 & P3). rewrite R1 in P3.
    change (o_list_pkgs O2) with (o_list_pkgs O1). change (o_update O2) with (o_update O1). change (o_ignores O2) with (o_ignores O1). cbn [with_skips o_no_ignores].
    set (c := nth (l_cfg f) h empty_config) in *. set (c' := nth (l_cfg f) h' empty_config) in *.
    set (c1 := if ni then mkCfg (cf_path c) [] (cf_dbs c) else c).
    assert (Q1 : cf_path c1 = cf_path c) by (unfold c1; now destruct ni). assert (Q2 : cf_ignore c1 = cf_ignore c') by (unfold c1; rewrite P2; now destruct ni).
    assert (Q3 : cf_dbs c1 = cf_dbs c) by (unfold c1; now destruct ni). rewrite Q1, Q3, P1, P3.
    assert (Q : heaps D (upd h (l_cfg f) c1) (upd h' (l_cfg f) c')).
    { split; [now rewrite !upd_length|]. intros j. destruct (Nat.eq_dec j (l_cfg f)) as [->|N].
      - destruct (Nat.lt_ge_cases (l_cfg f) (List.length h)) as [T|T].
        + rewrite !nth_upd_same by lia. repeat split; [congruence| |rewrite R1; congruence]. rewrite <- Q2. unfold c1. now destruct ni.
        + rewrite !nth_overflow by (rewrite upd_length; lia). apply pair_empty.
      - rewrite !nth_upd_other by auto. apply H. }
    eapply jr_eq; [apply jr_set_heap; exact Q|]. intros _. eapply jr_eq; [jj|]. intros _. destruct (o_list_pkgs O1).
    { eapply jr_eq; [jj|]. intros _. now apply IH. }
    eapply jr_eq.
    { destruct (negb (seqb (cf_path c) "")); [|jj]. apply jr_texts. intros st. destruct ni eqn:NI.
      - rewrite P2. cbn [List.length]. change (dec_of_nat 0 +s+ " " +s+ form 0 "ignore" "ignores") with "0 ignores".
        pose proof (al_config E true st (cf_path c) eq_refl) as A. exact A.
      - unfold c1. rewrite P2. constructor. }
    intros _. replace (if negb (seqb (cf_path c) "") && negb ni then cf_ignore c1 else []) with (if negb (seqb (cf_path c) "") && negb false then cf_ignore c' else []).
    2:{ rewrite <- Q2. subst c1. destruct (negb (seqb (cf_path c) "")); cbn [andb]; [|reflexivity]. now destruct ni. }
    eapply jr_eq; [apply jr_get; intros ? ? []; assumption|]. intros ds. eapply jr_eq; [jj|]. intros _. eapply jr_eq; [jj|]. intros _.
    eapply jr_eq; [apply K|]. intros x. eapply jr_eq; [jj|]. intros _. eapply jr_eq; [jj|]. intros _. apply IH. exact R2.
Qed.

(** ** the run *)
Lemma update_clear fs path ign : nd = false ->
  update_with_ignores (e_dec_yaml E') (e_enc_yaml E') fs (e_openable E') path ign = update_with_ignores (e_dec_yaml E) (e_enc_yaml E) fs (e_openable E) path ign.
Proof.
  intros N. unfold update_with_ignores, load_raw. destruct (fs (clean path)) as [t| |]; auto. cbn. destruct (e_dec_yaml E t) as [rc|]; cbn; auto.
  now rewrite N.
Qed.
Lemma jr_write D seen : nd = false -> jr D D eq (write_updated_configs E O1 seen) (write_updated_configs E' O2 seen).
Proof.
  intros N. assert (U : forall x, jr D D eq (update_one E x) (update_one E' x)).
  { intros [path vulns]. unfold update_one. cbv zeta. eapply jr_eq; [apply jr_get; intros ? ? []; assumption|]. intros fs. eapply jr_eq; [apply jr_emit|]. intros _.
    rewrite (update_clear fs path) by exact N. change (e_sort E') with (e_sort E). change (e_iter E') with (e_iter E). change (e_col E') with (e_col E). change (e_text E') with (e_text E).
    destruct (update_with_ignores _ _ _ _ _ _); jj. }
  assert (H : forall l, jr D D eq (update_all E l) (update_all E' l)).
  { induction l as [|x l IH]; cbn [update_all]; jj. }
  unfold write_updated_configs. change (e_iter E') with (e_iter E). change (e_sort E') with (e_sort E). jj.
Qed.
Lemma jr_find_all D : jr D D eq (find_all_lockfiles E O1) (find_all_lockfiles E' O2).
Proof.
  assert (F : forall path a, jr D D eq (find_lockfiles E path a) (find_lockfiles E' path a)).
  { intros path a. unfold find_lockfiles. change (e_stat E') with (e_stat E). change (e_sort E') with (e_sort E). change (e_text E') with (e_text E). destruct (e_stat E path); jj. }
  assert (H : forall l, jr D D eq (find_all_loop E O1 l) (find_all_loop E' O2 l)).
  { induction l as [|x l IH]; cbn [find_all_loop]; [jj|]. destruct (split_parse_as x). change (o_parse_as O2) with (o_parse_as O1). jj. }
  unfold find_all_lockfiles. change (o_parse_as O2) with (o_parse_as O1). change (o_args O2) with (o_args O1). jj.
Qed.
Definition files_rest (E : Env) (O : Opts) (fl : list LFile) : M Z :=
  adjust_all E O fl ;; h <- get s_heap ; x <- load_databases E O (unique_db_configs (map cf_dbs (get_configs h fl))) (all_names E fl) ;
  set_dbs (fst x) ;; y <- check_files E O fl 0 (if snd x : bool then 127%Z else 0%Z) [] ;
  (if o_update O then write_updated_configs E O (snd y) else ret tt) ;; errored <- get s_errored ; ret (if errored && Z.eqb (fst y) 0 then 127%Z else fst y).
Lemma run_files_rest E0 O0 paths cl cfg s :
  run_files E0 O0 paths cl cfg s = match read_all E0 O0 paths cl cfg s with (Ok fl, s1) => files_rest E0 O0 fl s1 | (Panic, s1) => (Panic, s1) end.
Proof. reflexivity. Qed.
(** no config is used for two lockfiles *)
Definition apart (cl : bool) (cfg : nat) (s : St) : Prop :=
  nd = true -> cl = true \/ cfg < List.length (s_heap s) /\ cf_path (nth cfg (s_heap s) empty_config) <> "".
Lemma run_files_rel paths cl cfg s s' : rel none s s' -> apart cl cfg s ->
  match run_files E O1 paths cl cfg s, run_files E' O2 paths cl cfg s' with
  | (Ok a, s1), (Ok a', s1') => a = a' /\ base s1 s1'
  | (Panic, s1), (Panic, s1') => base s1 s1'
  | _, _ => False
  end.
Proof.
  intros L A. rewrite !run_files_rest. pose proof (jr_read paths cl cfg s s' L) as R.
  destruct (read_all E O1 paths cl cfg s) as [[fl|] s1] eqn:R1, (read_all E' O2 paths cl cfg s') as [[fl'|] s1']; try contradiction; [|exact R].
  destruct R as [<- L1].
  assert (ND : nd = true -> NoDup (map l_cfg (goods fl)) /\ Forall (fun f => none (l_cfg f) = false) (goods fl)).
  { intros N. assert (own_addresses (List.length (s_heap s)) (List.length (s_heap s1)) fl) as [N1 _]; [|split; [exact N1|now apply Forall_forall]].
    destruct (A N) as [->|[A1 A2]].
    - apply (read_all_spec E O1 Beside) in R1; [|discriminate]. apply R1.
    - destruct cl; [apply (read_all_spec E O1 Beside) in R1; [apply R1|discriminate]|].
      apply (read_all_spec E O1 (Same (nth cfg (s_heap s) empty_config))) in R1; [|now intros c Q; injection Q as <-].
      cbn [mode_shared] in R1. apply seqb_neq in A2. rewrite A2 in R1. apply R1. }
  set (D := all_of none fl).
  assert (J : jr none D eq (files_rest E O1 fl) (files_rest E' O2 fl)).
  { unfold files_rest. eapply jr_eq; [apply (jr_adjust fl none ND)|]. intros _. eapply jr_bind; [apply jr_heap|]. intros h h' H.
    change (all_names E' fl) with (all_names E fl). rewrite (configs_dbs D h h' H fl (ready_all none fl)). eapply jr_eq; [apply jr_load|]. intros x.
    eapply jr_eq; [jj|]. intros _. eapply jr_eq; [apply (jr_check_files D fl 0 _ [] (ready_all none fl))|]. intros y. eapply jr_eq; [|intros _; jj].
    change (o_update O2) with (o_update O1). destruct (o_update O1) eqn:U; [|jj]. apply jr_write. exact (Hupd U). }
  specialize (J s1 s1' L1). destruct (files_rest E O1 fl s1) as [[a|] s2], (files_rest E' O2 fl s1') as [[b|] s2']; try contradiction; auto.
  destruct J as [<- [B _]]. auto.
Qed.
Hypothesis Hcfg : nd = true -> o_no_config O = false /\ o_list_pkgs O = false.
Definition ends {A} (x x' : res A * St) : Prop :=
  match x, x' with
  | (Ok a, s1), (Ok a', s1') => a = a' /\ base s1 s1'
  | (Panic, s1), (Panic, s1') => base s1 s1'
  | _, _ => False
  end.
Lemma jr_ends {A} D D' (m m' : M A) s s' : jr D D' eq m m' -> rel D s s' -> ends (m s) (m' s').
Proof. intros H L. specialize (H s s' L). unfold ends. destruct (m s) as [[a|] s1], (m' s') as [[b|] s1']; try contradiction; auto. destruct H as [<- [B _]]. auto. Qed.
Lemma ends_bind {A B} D D' (RA : A -> A -> Prop) (m m' : M A) (f f' : A -> M B) s s' : jr D D' RA m m' -> rel D s s' ->
  (forall a a' s1 s1', RA a a' -> m s = (Ok a, s1) -> rel D' s1 s1' -> ends (f a s1) (f' a' s1')) -> ends (bind m f s) (bind m' f' s').
Proof.
  intros H L K. specialize (H s s' L). unfold bind. destruct (m s) as [[a|] s1] eqn:M1, (m' s') as [[b|] s1'] eqn:M2; try contradiction; auto.
  destruct H as [H1 H2]. now apply K.
Qed.
Lemma bind_unf {A B} (m : M A) (f : A -> M B) s : bind m f s = match m s with (Ok a, s1) => f a s1 | (Panic, s1) => (Panic, s1) end.
Proof. reflexivity. Qed.
Lemma alloc_run c s i s1 : alloc c s = (Ok i, s1) -> i = List.length (s_heap s) /\ s_heap s1 = s_heap s ++ [c].
Proof. intros H. unfold alloc in H. injection H as <- <-. auto. Qed.
Lemma loaded_path path s c s1 : load_cfg E path s = (Ok (inr c), s1) -> cf_path c <> "".
Proof.
  intros H. unfold load_cfg in H. rewrite bind_unf in H. unfold emit in H. cbn beta iota in H. rewrite bind_unf in H. unfold get in H. cbn beta iota in H. destruct (load_config _ _ _ _) as [e|[c0 errs]] eqn:Q; [discriminate|].
  rewrite (bind_unf (report_db_errs E (cf_path c0) errs)) in H. destruct (report_db_errs E (cf_path c0) errs _) as [[u|] s2]; [|discriminate]. injection H as <- _.
  apply ConfigProofs.load_config_good in Q as (raw & _ & P & _). rewrite P. apply PathFacts.clean_nonempty.
Qed.
Lemma run_config_rel paths s s' : rel none s s' -> ends (run_config E O1 paths s) (run_config E' O2 paths s').
Proof.
  intros L. unfold run_config. cbv zeta. change (o_list_pkgs O2) with (o_list_pkgs O). change (o_list_pkgs O1) with (o_list_pkgs O). change (o_no_config O2) with (o_no_config O). change (o_no_config O1) with (o_no_config O). change (o_config O2) with (o_config O). change (o_config O1) with (o_config O).
  assert (P0 : pair_cfg false empty_config empty_config) by apply pair_empty.
  destruct (o_list_pkgs O) eqn:LP.
  - apply (ends_bind none none eq _ _ _ _ s s' (jr_alloc _ _ P0) L). intros i i' s1 s1' <- H1 L1. apply run_files_rel; [exact L1|].
    intros N. destruct (Hcfg N). congruence.
  - destruct (negb (o_no_config O) && negb (seqb (o_config O) "")) eqn:C.
    + apply (ends_bind none none (both (pair_cfg false)) _ _ _ _ s s' (jr_load_cfg none _) L). intros x x' s1 s1' Rx Hx L1. destruct x as [e|c], x' as [e'|c']; try contradiction.
      * cbn in Rx. subst e'. eapply jr_ends; [|exact L1]. change (e_text E') with (e_text E). jj.
      * apply (ends_bind none none eq _ _ _ _ s1 s1' (jr_alloc _ _ Rx) L1). intros i i' s2 s2' <- H2 L2. apply run_files_rel; [exact L2|].
        intros N. right. apply alloc_run in H2 as [-> H2]. rewrite H2, app_length, nth_middle. cbn. split; [lia|].
        exact (loaded_path _ _ _ _ Hx).
    + apply (ends_bind none none eq _ _ _ _ s s' (jr_alloc _ _ P0) L). intros i i' s1 s1' <- H1 L1. apply run_files_rel; [exact L1|].
      intros N. left. destruct (Hcfg N) as [-> _]. reflexivity.
Qed.
Lemma run_body_rel s s' : rel none s s' -> ends (run_body E O1 s) (run_body E' O2 s').
Proof.
  intros L. unfold run_body. change (o_version O2) with (o_version O1). change (e_version_line E') with (e_version_line E). destruct (o_version O1); [eapply jr_ends; [|exact L]; jj|]. change (o_list_eco O2) with (o_list_eco O1).
  destruct (o_list_eco O1); [eapply jr_ends; [|exact L]; unfold print_known_ecosystems; generalize known_ecosystems; intros ke; jj|].
  change (o_parse_as O2) with (o_parse_as O1). change (list_parsers (e_sort E') (e_iter E')) with (list_parsers (e_sort E) (e_iter E)).
  destruct (negb _); [eapply jr_ends; [|exact L]; generalize (list_parsers (e_sort E) (e_iter E)); intros lp; jj|].
  apply (ends_bind none none eq _ _ _ _ s s' (jr_find_all none) L). intros x x' s1 s1' <- _ L1.
  change (o_args O2) with (o_args O1). destruct (Nat.eqb _ _); [eapply jr_ends; [|exact L1]; jj|]. now apply run_config_rel.
Qed.
Lemma run_rel fs cache : ends (run E O1 (start fs cache)) (run E' O2 (start fs cache)).
Proof.
  assert (L : rel none (start fs cache) (start fs cache)).
  { split; [constructor; cbn; constructor|]. split; [reflexivity|]. intros i. cbn. destruct i; apply pair_empty. }
  pose proof (run_body_rel _ _ L) as H. unfold run. destruct (run_body E O1 (start fs cache)) as [r s], (run_body E' O2 (start fs cache)) as [r' s'].
  change (o_json O2) with (o_json O1). destruct (o_json O1); [|exact H].
  assert (B : base s s') by (destruct r, r'; try contradiction; [apply H|exact H]).
  assert (B1 : base (snd (print_json_results E s)) (snd (print_json_results E' s'))).
  { unfold print_json_results, bind, get. cbn beta iota. change (e_osv_json E') with (e_osv_json E). rewrite <- (b_res _ _ B). apply base_emit; [constructor|exact B]. }
  destruct (print_json_results E s) as [u t], (print_json_results E' s') as [u' t']. cbn [snd] in B1. unfold ends in *. destruct r, r'; try contradiction; [destruct H; auto|exact B1].
Qed.
End Clear.
Lemma same_run E O ignores dbs fs cache r s r' s' :
  (o_update O = true -> dbs = false) -> (dbs = true -> o_no_config O = false /\ o_list_pkgs O = false) ->
  run E (with_skips O ignores dbs) (start fs cache) = (r, s) ->
  run (cleared E ignores dbs) (with_skips O false false) (start fs cache) = (r', s') ->
  r = r' /\ Forall2 (alike E ignores) (s_trace s) (s_trace s') /\ s_files s = s_files s' /\ s_cache s = s_cache s'.
Proof.
  intros H1 H2 R R'. pose proof (run_rel E O ignores dbs H1 H2 fs cache) as X. rewrite R, R' in X. unfold ends in X.
  destruct r, r'; try contradiction; [destruct X as [<- B]|rename X into B]; (split; [reflexivity|]); (split; [apply B|]); split; apply B.
Qed.
