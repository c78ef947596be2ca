From Verif Require Import GoStr GoStrFacts GoSort GoSortFacts Types Osv MemDB MemDBSpec MemDBProofs Path Api ZipDB DirDB DbConfig Configer ConfigProofs GoMap Lockfile LockfileProofs Csv Ecosystems Report ReportSpec ReportProofs Main MainSpec MainTrace.

(** ** quiet steps *)
Definition quiet (e : ev) : bool :=
  match e with EOut _ _ _ | EReadConfig _ | EZip _ | EApi _ _ => true | _ => false end.
Inductive calm (s s' : St) : Prop :=
| calm_intro : forall new, s_trace s' = s_trace s ++ new -> forallb quiet new = true ->
    s_heap s' = s_heap s -> s_files s' = s_files s -> s_results s' = s_results s -> calm s s'.
Lemma calm_refl s : calm s s.
Proof. exists []; auto. cbn. now rewrite app_nil_r. Qed.
Lemma calm_trans a b c : calm a b -> calm b c -> calm a c.
Proof.
  intros [n1 T1 Q1 H1 F1 R1] [n2 T2 Q2 H2 F2 R2]. exists (n1 ++ n2); try congruence.
  - now rewrite T2, T1, app_assoc.
  - now rewrite forallb_app, Q1, Q2.
Qed.
Definition still (s s' : St) : Prop := calm s s' /\ s_dbs s' = s_dbs s.
Lemma still_refl s : still s s. Proof. split; [apply calm_refl|reflexivity]. Qed.
Lemma still_trans a b c : still a b -> still b c -> still a c.
Proof. intros [C1 D1] [C2 D2]. split; [eapply calm_trans; eauto|congruence]. Qed.
Lemma quiet_none new : forallb quiet new = true -> checks new = [] /\ loads new = [] /\ failures new = [] /\ writes new = [].
Proof.
  induction new as [|e new IH]; cbn; [auto|]. intros H. apply andb_true_iff in H as [H1 H2]. destruct (IH H2) as (A & B & C & D).
  unfold checks, loads, failures, writes in *. cbn. rewrite A, B, C, D. destruct e; try discriminate; auto.
Qed.
Lemma checks_app a b : checks (a ++ b) = checks a ++ checks b. Proof. apply flat_map_app. Qed.
Lemma loads_app a b : loads (a ++ b) = loads a ++ loads b. Proof. apply flat_map_app. Qed.
Lemma failures_app a b : failures (a ++ b) = failures a ++ failures b. Proof. apply flat_map_app. Qed.
Lemma writes_app a b : writes (a ++ b) = writes a ++ writes b. Proof. apply flat_map_app. Qed.

Notation Still := (keeps still).
Lemma S_ret {A} (a : A) : Still (ret a). Proof. apply keeps_ret, still_refl. Qed.
Lemma S_lift {A} (r : res A) : Still (lift r). Proof. apply keeps_lift, still_refl. Qed.
Lemma S_get {A} (f : St -> A) : Still (get f). Proof. apply keeps_get, still_refl. Qed.
Lemma S_bind {A B} (m : M A) (f : A -> M B) : Still m -> (forall a, Still (f a)) -> Still (bind m f).
Proof. apply keeps_bind, still_trans. Qed.
Lemma S_each {A} (f : A -> M unit) l : (forall a, In a l -> Still (f a)) -> Still (each f l).
Proof. apply keeps_each; [apply still_refl|apply still_trans]. Qed.
Lemma S_emit e : quiet e = true -> Still (emit e).
Proof. intros H s. split; [|reflexivity]. exists [e]; cbn; auto. now rewrite H. Qed.
Lemma S_error t : Still (print_error t).
Proof. intros s. split; [|reflexivity]. exists [EOut KErr Stderr t]; cbn; auto. Qed.
Lemma S_text O t : Still (print_text O t).
Proof. now apply S_emit. Qed.
Lemma S_set_cache c : Still (set_cache c).
Proof. intros s. split; [|reflexivity]. exists []; cbn; auto. now rewrite app_nil_r. Qed.
Ltac ss := repeat match goal with
  | |- keeps _ (bind _ _) => apply S_bind; [|intros ?]
  | |- keeps _ (ret _) => apply S_ret
  | |- keeps _ (lift _) => apply S_lift
  | |- keeps _ (get _) => apply S_get
  | |- keeps _ (print_text _ _) => apply S_text
  | |- keeps _ (print_error _) => apply S_error
  | |- keeps _ (set_cache _) => apply S_set_cache
  | |- keeps _ (emit _) => apply S_emit; reflexivity
  | |- keeps _ (each _ _) => apply S_each; intros ? ?
  | |- keeps _ (if ?b then _ else _) => destruct b
  | |- keeps _ (match ?b with _ => _ end) => destruct b
  | H : keeps _ ?m |- keeps _ ?m => exact H
  end.
Lemma keeps_at (R : St -> St -> Prop) {A} (m : M A) s r s' : keeps R m -> m s = (r, s') -> R s s'.
Proof. intros H E. specialize (H s). now rewrite E in H. Qed.
(** steps that leave the cache alone *)
Definition same_cache (s s' : St) : Prop := s_cache s' = s_cache s.
Lemma same_cache_refl s : same_cache s s. Proof. reflexivity. Qed.
Lemma same_cache_trans a b c : same_cache a b -> same_cache b c -> same_cache a c. Proof. unfold same_cache. congruence. Qed.
Ltac kk := repeat match goal with
  | |- keeps _ (bind _ _) => apply (keeps_bind _ same_cache_trans); [|intros ?]
  | |- keeps _ (ret _) => apply keeps_ret, same_cache_refl
  | |- keeps _ (lift _) => apply keeps_lift, same_cache_refl
  | |- keeps _ (get _) => apply keeps_get, same_cache_refl
  | |- keeps _ (print_text _ _) => intros ?; reflexivity
  | |- keeps _ (print_error _) => intros ?; reflexivity
  | |- keeps _ (emit _) => intros ?; reflexivity
  | |- keeps _ (set_heap _) => intros ?; reflexivity
  | |- keeps _ (each _ _) => apply (keeps_each _ same_cache_refl same_cache_trans); intros ? ?
  | |- keeps _ (if ?b then _ else _) => destruct b
  | |- keeps _ (match ?b with _ => _ end) => destruct b
  | H : keeps _ ?m |- keeps _ ?m => exact H
  | _ => progress cbv zeta
  end.
Ltac step H a s1 Hm := apply bind_ok in H as (a & s1 & Hm & H).
Ltac step_still H :=
  let a := fresh "a" in let s1 := fresh "s" in let Hm := fresh "Hm" in
  apply bind_ok in H as (a & s1 & Hm & H);
  match type of Hm with ?m ?s = _ => let K := fresh "K" in assert (K : still s s1) by (eapply keeps_at; [|exact Hm]; ss); clear Hm end.

Inductive evolves (S : Sorter) (sem : Semantic) : DB -> DB -> Prop :=
| ev_zip : forall n i db db' date, history S sem db db' -> evolves S sem (ZipD n i db date) (ZipD n i db' date)
| ev_dir : forall n i db db', history S sem db db' -> evolves S sem (DirD n i db) (DirD n i db')
| ev_api : forall a, evolves S sem (ApiD a) (ApiD a).
Lemma evolves_refl S sem d : evolves S sem d d.
Proof. destruct d; constructor; constructor. Qed.
Lemma history_snoc S sem db db1 pkgs rs db2 : history S sem db db1 -> check S sem db1 pkgs = Ok (rs, db2) -> history S sem db db2.
Proof.
  intros H. induction H as [db|db ps r db0 db1 C H IH]; intros C'; [|econstructor; eauto].
  econstructor; [exact C'|constructor].
Qed.
Lemma evolves_ident S sem d d' : evolves S sem d d' -> db_ident d = db_ident d'.
Proof. now destruct 1. Qed.

Lemma upd_Forall2 {A B} (R : A -> B -> Prop) l l' i a b :
  Forall2 R l l' -> nth_error l i = Some a -> R a b -> Forall2 R l (upd l' i b).
Proof.
  intros F. revert i. induction F as [|x y l l' H F IH]; intros [|i] N Q; cbn in *; try discriminate.
  - injection N as ->. now constructor.
  - constructor; auto.
Qed.
Lemma Forall2_nth {A B} (R : A -> B -> Prop) l l' i b :
  Forall2 R l l' -> nth_error l' i = Some b -> exists a, nth_error l i = Some a /\ R a b.
Proof.
  intros F. revert i. induction F as [|x y l l' H F IH]; intros [|i] N; cbn in *; try discriminate; eauto.
  injection N as ->. eauto.
Qed.

Section Run.
Variable E : Env.
Variable O : Opts.
Notation Evolves := (evolves (e_sort E) (e_sem E)).

Lemma check_db_answers k d0 d pkgs r d' : Evolves d0 d -> check_db E k d pkgs = Ok (r, d') ->
  Evolves d0 d' /\ answers E k pkgs d0 (match r with inr x => Some x | inl _ => None end).
Proof.
  intros V C. destruct V as [n i db db' date H|n i db db' H|a]; cbn in C.
  - destruct (check _ _ _ _) as [[rs db2]|] eqn:K; [|discriminate]. cbn in C. injection C as <- <-.
    split; [constructor; eapply history_snoc; eauto|]. econstructor; eauto.
  - destruct (check _ _ _ _) as [[rs db2]|] eqn:K; [|discriminate]. cbn in C. injection C as <- <-.
    split; [constructor; eapply history_snoc; eauto|]. econstructor; eauto.
  - destruct (e_api E k a pkgs) as [r0|] eqn:K; [|discriminate]. cbn in C. injection C as <- <-.
    split; [constructor|]. destruct r0 as [e|rs]; econstructor; eauto.
Qed.
Lemma check_dbs_spec k lf use ds0 : forall s raw s', check_dbs E k use lf s = (Ok raw, s') ->
  Forall2 Evolves ds0 (s_dbs s) ->
  calm s s' /\ Forall2 Evolves ds0 (s_dbs s')
  /\ exists ans, Forall2 (fun i a => exists d, nth_error ds0 i = Some d /\ answers E k (lf_pkgs lf) d a) use ans /\ raw = given ans.
Proof.
  induction use as [|i use IH]; intros s raw s' H F; cbn [check_dbs] in H.
  - injection H as <- <-. split; [apply calm_refl|]. split; [exact F|]. exists []. split; [constructor|reflexivity].
  - step H ds s0 Hg. injection Hg as <- <-. destruct (nth_error (s_dbs s) i) as [d|] eqn:N; [|discriminate].
    assert (exists s1, still s s1 /\ (x <- lift (check_db E k d (lf_pkgs lf)) ; let '(r, d') := x in
          set_dbs (upd (s_dbs s) i d') ;;
          match r with
          | inl e =>
              print_error (e_col E "red" ("  an api error occurred while trying to check the packages listed in "
                           +s+ lf_path lf +s+ ": " +s+ e_text E (AApi e) +s+ newline)) ;;
              check_dbs E k use lf
          | inr results => rest <- check_dbs E k use lf ; ret (results :: rest)
          end) s1 = (Ok raw, s')) as (s1 & S1 & H1).
    { apply bind_ok in H as (u & s1 & Hm & H). exists s1. split; [|exact H].
      eapply keeps_at; [|exact Hm]. destruct d; ss. }
    clear H. step H1 x s2 Hx. unfold lift in Hx. injection Hx as Hx <-. destruct x as [r d'].
    destruct (Forall2_nth _ _ _ _ _ F N) as (d0 & N0 & V0).
    destruct (check_db_answers k d0 d _ _ _ V0 Hx) as [V1 A1].
    step H1 u s3 Hs. unfold set_dbs in Hs. injection Hs as _ <-.
    set (s3 := mkSt _ _ _ _ _ _ _) in H1.
    assert (F3 : Forall2 Evolves ds0 (s_dbs s3)) by (cbn; eapply upd_Forall2; eauto).
    assert (C3 : calm s s3) by (destruct S1 as [[new T Q Hh Hf Hr] _]; exists new; auto).
    destruct r as [e|results].
    + step_still H1. destruct K as [K1 K2]. destruct (IH _ _ _ H1) as (C4 & F4 & ans & FA & ->); [now rewrite K2|].
      split; [eapply calm_trans; [exact C3|eapply calm_trans; eauto]|]. split; [exact F4|].
      exists (None :: ans). split; [|reflexivity]. constructor; eauto.
    + step H1 rest s4 Hr. injection H1 as <- <-. destruct (IH _ _ _ Hr F3) as (C4 & F4 & ans & FA & ->).
      split; [eapply calm_trans; eauto|]. split; [exact F4|].
      exists (Some results :: ans). split; [|reflexivity]. constructor; eauto.
Qed.

(** the databases picked, in loading order *)
Lemma pick_one (d : DB) (j : nat) cs : NoDup (map identifier cs) ->
  flat_map (fun c => if seqb (identifier c) (db_ident d) then [j] else []) cs
  = (if mem (db_ident d) (map identifier cs) then [j] else []).
Proof.
  induction cs as [|c cs IH]; cbn; [reflexivity|]. intros ND. inversion ND as [|? ? N1 N2]; subst. rewrite (IH N2).
  unfold mem in *. cbn. destruct (seqb_spec (identifier c) (db_ident d)) as [Q'|Q']; destruct (seqb_spec (db_ident d) (identifier c)) as [Q|Q]; cbn; try congruence.
  assert (X : existsb (seqb (db_ident d)) (map identifier cs) = false).
  { apply not_true_is_false. intros X. apply existsb_exists in X as (y & Y1 & Y2). apply seqb_eq in Y2. subst y. rewrite Q in Y1. contradiction. }
  now rewrite X.
Qed.
Lemma for_configs_spec ds0 ds cs : map db_ident ds = map db_ident ds0 -> NoDup (map identifier cs) ->
  exists used, selects (fun d => In (db_ident d) (map identifier cs)) ds0 used
    /\ Forall2 (fun i d => nth_error ds0 i = Some d) (for_configs ds cs) used.
Proof.
  intros Q ND. unfold for_configs.
  assert (G : forall l l0 pre, ds0 = pre ++ l0 -> map db_ident l = map db_ident l0 -> exists used,
    selects (fun d => In (db_ident d) (map identifier cs)) l0 used
    /\ Forall2 (fun i d => nth_error ds0 i = Some d)
         (flat_map (fun '(i, db) => flat_map (fun c => if seqb (identifier c) (db_ident db) then [i] else []) cs)
            (combine (seq (List.length pre) (List.length l)) l)) used).
  { induction l as [|d l IH]; intros [|d0 l0] pre Hp Hm; try discriminate.
    - exists []. split; constructor.
    - cbn in Hm. injection Hm as Hd Hm. destruct (IH l0 (pre ++ [d0])) as (used & S1 & S2); [now rewrite <- app_assoc|exact Hm|].
      rewrite app_length in S2. cbn [List.length] in S2. rewrite Nat.add_1_r in S2.
      cbn [List.length seq combine flat_map]. rewrite pick_one by exact ND.
      destruct (mem (db_ident d) (map identifier cs)) eqn:X.
      + exists (d0 :: used). rewrite Hd in X. apply mem_iff in X. split; [now apply sel_take|]. cbn. constructor; [|exact S2].
        rewrite Hp, nth_error_app2, Nat.sub_diag by lia. reflexivity.
      + exists used. split; [|exact S2]. apply sel_skip; [|exact S1]. rewrite Hd in X. intros Y. apply mem_iff in Y. congruence. }
  apply (G ds ds0 []); auto.
Qed.
Lemma idents_same ds0 ds : Forall2 Evolves ds0 ds -> map db_ident ds = map db_ident ds0.
Proof. induction 1 as [|d d' l l' V F IH]; cbn; [reflexivity|]. rewrite IH. f_equal. symmetry. eapply evolves_ident; eauto. Qed.

(** ** the loop over the lockfiles *)
Definition goods (files : list LFile) : list LFile := filter (fun f => match l_err f with None => true | _ => false end) files.
Definition good_at (h : list Config) (f : LFile) : Lockfile * Config := (l_lock f, nth (l_cfg f) h empty_config).
Definition same_but_ignores (h h' : list Config) : Prop :=
  Forall2 (fun c c' => cf_path c' = cf_path c /\ cf_dbs c' = cf_dbs c /\ (o_no_ignores O = false -> cf_ignore c' = cf_ignore c)) h h'.
Lemma same_but_refl h : same_but_ignores h h.
Proof. induction h; constructor; auto. Qed.
Lemma same_but_nth h h' i : same_but_ignores h h' ->
  let c := nth i h empty_config in let c' := nth i h' empty_config in
  cf_path c' = cf_path c /\ cf_dbs c' = cf_dbs c /\ (o_no_ignores O = false -> cf_ignore c' = cf_ignore c).
Proof. intros F. revert i. induction F as [|c c' h h' H F IH]; intros [|i]; cbn; auto. Qed.
Lemma same_but_upd h h' i c : same_but_ignores h h' ->
  (let c0 := nth i h empty_config in cf_path c = cf_path c0 /\ cf_dbs c = cf_dbs c0 /\ (o_no_ignores O = false -> cf_ignore c = cf_ignore c0)) ->
  same_but_ignores h (upd h' i c).
Proof. intros F. revert i. induction F as [|x y h h' H F IH]; intros [|i] Q; cbn in *; constructor; auto. apply IH, Q. Qed.
Definition add_check (ck : checked) (seen : list (string * list string)) : list (string * list string) :=
  if o_update O && negb (seqb (ck_cfg ck) "") then add_seen (ck_cfg ck) (seen_ids (ck_report ck)) seen else seen.
Definition exit_after (files : list LFile) (cks : list checked) (exit : Z) : Z :=
  if existsb (fun f => match l_err f with None => false | _ => true end) files then 127%Z
  else if Z.eqb exit 0 then (if existsb (fun c => has_known (ck_report c)) cks then 1%Z else 0%Z) else exit.
Lemma report_cfg_path c : (o_no_ignores O = true -> cf_ignore c = []) -> (cf_path c = "" -> cf_ignore c = []) ->
  (if negb (seqb (cf_path c) "") && negb (o_no_ignores O) then cf_ignore c else []) = cf_ignore c.
Proof.
  intros H1 H2. destruct (seqb_spec (cf_path c) "") as [Q|Q]; cbn; [now rewrite H2|].
  destruct (o_no_ignores O); cbn; [now rewrite H1|reflexivity].
Qed.
Definition proper (c : Config) : Prop := NoDup (map identifier (cf_dbs c)) /\ (cf_path c = "" -> cf_ignore c = []).
Lemma check_files_spec ds0 h0 : o_list_pkgs O = false ->
  forall files, Forall (fun f => proper (nth (l_cfg f) h0 empty_config)) (goods files) ->
  forall k exit seen s exit' seen' s',
  check_files E O files k exit seen s = (Ok (exit', seen'), s') ->
  Forall2 Evolves ds0 (s_dbs s) -> same_but_ignores h0 (s_heap s) ->
  exists new, s_trace s' = s_trace s ++ new /\ loads new = [] /\ failures new = [] /\ writes new = []
    /\ Forall2 (fun f ck => exists k, check_of E O k ds0 (l_lock f) (nth (l_cfg f) h0 empty_config) ck) (goods files) (checks new)
    /\ s_results s' = (if o_json O then s_results s ++ map (fun c => RReport (ck_report c)) (checks new) else s_results s)
    /\ exit' = exit_after files (checks new) exit
    /\ seen' = fold_left (fun m ck => add_check ck m) (checks new) seen
    /\ s_files s' = s_files s.
Proof.
  intros HL. induction files as [|f fs IH]; intros HP k exit seen s exit' seen' s' H F SB; cbn [check_files] in H.
  - injection H as <- <- <-. exists []. cbn. rewrite app_nil_r. destruct (o_json O); rewrite ?app_nil_r;
    repeat split; try constructor; unfold exit_after; cbn; try (now destruct (Z.eqb_spec exit 0)).
  - step_still H. rename K into K0.
    unfold goods in HP. cbn [filter] in HP. destruct (l_err f) as [e|] eqn:Er.
    + specialize (IH HP). step_still H. rename K into K1. pose proof (still_trans _ _ _ K0 K1) as [[n1 T1 Q1 Hh1 Hf1 Hr1] D1].
      apply IH in H; [|now rewrite D1|now rewrite Hh1].
      destruct H as (new & T & L1 & L2 & L3 & Fa & R & X & Y & Z0). destruct (quiet_none _ Q1) as (A & B & C & D).
      exists (n1 ++ new). rewrite checks_app, loads_app, failures_app, writes_app, A, B, C, D. cbn [app].
      split; [now rewrite T, T1, app_assoc|]. split; [exact L1|]. split; [exact L2|]. split; [exact L3|].
      split; [unfold goods; cbn [filter]; rewrite Er; exact Fa|]. split; [now rewrite R, Hr1|].
      split; [|split; [exact Y|congruence]]. rewrite X. unfold exit_after. cbn [existsb]. rewrite Er. cbn. now destruct (existsb _ fs).
    + inversion HP as [|? ? HP1 HP2]; subst. specialize (IH HP2). destruct HP1 as [HN HI].
      step H h s2 Hg. injection Hg as <- <-. cbv zeta in H.
      set (c := if o_no_ignores O then _ else _) in H.
      step H u s3 Hs. unfold set_heap in Hs. injection Hs as _ <-.
      set (s3 := mkSt _ _ _ _ _ _ _) in H.
      step_still H. rewrite HL in H. step_still H.
      step H dbs s6 Hg. injection Hg as <- <-. step_still H. step_still H.
      step H x s9 Hx. unfold check_lockfile in Hx. step Hx raw s10 Hd. step Hx rows s11 Ht. unfold lift in Ht. injection Ht as Ht <-.
      injection Hx as <- <-. cbn [fst snd] in H.
      destruct K0 as [[n0 T0 Q0 Hh0 Hf0 Hr0] D0].
      assert (SB3 : same_but_ignores h0 (s_heap s3)).
      { cbn. apply same_but_upd; [now rewrite Hh0|]. pose proof (same_but_nth h0 (s_heap s) (l_cfg f) SB) as (A & B & C). cbn zeta in *.
        unfold c. rewrite Hh0. destruct (o_no_ignores O); cbn; repeat split; auto. discriminate. }
      pose proof (same_but_nth h0 (s_heap s) (l_cfg f) SB) as (SP & SD & SI). cbn zeta in SP, SD, SI. rewrite <- Hh0 in SP, SD, SI.
      set (c0 := nth (l_cfg f) h0 empty_config) in *.
      assert (Pc : cf_path c = cf_path c0) by (unfold c; destruct (o_no_ignores O); exact SP).
      assert (Dc : cf_dbs c = cf_dbs c0) by (unfold c; destruct (o_no_ignores O); exact SD).
      assert (Ic : (if negb (seqb (cf_path c) "") && negb (o_no_ignores O) then cf_ignore c else []) ++ o_ignores O = ignores_of O c0).
      { unfold ignores_of. f_equal. rewrite Pc. unfold c. destruct (o_no_ignores O); [now rewrite andb_false_r|]. rewrite andb_true_r.
        destruct (seqb_spec (cf_path c0) "") as [Z0|Z0]; cbn [negb]; [|now apply SI]. symmetry.
        now apply HI. }
      rewrite Ic, Pc, Dc in *. clear Ic.
      pose proof (still_trans _ _ _ K K1) as K12. pose proof (still_trans _ _ _ K2 K3) as K34.
      pose proof (still_trans _ _ _ K12 K34) as [C5 D5].
      assert (D2 : s_dbs s2 = s_dbs s) by (destruct K12 as [_ D2]; rewrite D2; exact D0).
      destruct (check_dbs_spec k (l_lock f) _ ds0 _ _ _ Hd) as (C10 & F10 & ans & FA & ->); [rewrite D5; cbn; now rewrite D0|].
      destruct (for_configs_spec ds0 (s_dbs s2) (cf_dbs c0)) as (used & U1 & U2); [rewrite D2; now apply idents_same|exact HN|].
      assert (FA' : Forall2 (answers E k (lf_pkgs (l_lock f))) used ans).
      { clear - FA U2. revert ans FA. induction U2 as [|i d l used Hn U2 IH]; intros ans FA; inversion FA as [|? ? ? ? Q1 Q2]; subst; constructor; auto.
        destruct Q1 as (d1 & N1 & A1). congruence. }
      assert (ID : flat_map (fun i => match nth_error (s_dbs s2) i with Some d => [db_ident d] | None => [] end)
                     (for_configs (s_dbs s2) (cf_dbs c0)) = map db_ident used).
      { rewrite D2 in *. clear - U2 F. induction U2 as [|i d l used Hn U2 IH]; [reflexivity|]. cbn [flat_map map].
        pose proof (map_nth_error db_ident i ds0 Hn) as M1. rewrite <- (idents_same _ _ F) in M1.
        destruct (nth_error (s_dbs s) i) as [d'|] eqn:N.
        - rewrite (map_nth_error db_ident i _ N) in M1. injection M1 as ->. cbn. now rewrite IH.
        - apply nth_error_None in N. assert (nth_error (map db_ident (s_dbs s)) i = None) by (apply nth_error_None; now rewrite map_length). congruence. }
      rewrite ID in H. clear ID.
      set (report := mkRep (l_lock f) rows) in *. set (ck := mkChk (cf_path c0) (map db_ident used) (ignores_of O c0) (given ans) report).
      step H u1 s11 He. unfold emit in He. injection He as _ <-. step H u2 s12 Hp.
      assert (P12 : exists n2, forallb quiet n2 = true /\ s_trace s12 = s_trace s10 ++ [ECheck (cf_path c0) (map db_ident used) (ignores_of O c0) (given ans) report] ++ n2
               /\ s_heap s12 = s_heap s10 /\ s_dbs s12 = s_dbs s10 /\ s_files s12 = s_files s10
               /\ s_results s12 = if o_json O then s_results s10 ++ [RReport report] else s_results s10).
      { unfold print_result, add_result, emit in Hp. destruct (o_json O); injection Hp as _ <-; cbn.
        - exists []. repeat split.
        - exists [EOut KRes Stdout (result_string (e_col E) (RReport report))]. cbn. rewrite <- app_assoc. repeat split. }
      destruct P12 as (n2 & Q2 & T2 & Hh2 & D12 & Hf2 & R2).
      destruct C5 as [n5 T5 Q5 Hh5 Hf5 Hr5]. destruct C10 as [n10 T10 Q10 Hh10 Hf10 Hr10].
      apply IH in H; [|now rewrite D12|rewrite Hh2, Hh10, Hh5; exact SB3].
      destruct H as (new & T & L1 & L2 & L3 & Fa & R & X & Y & Z0).
      destruct (quiet_none _ Q0) as (A0 & A1 & A2 & A3). destruct (quiet_none _ Q5) as (B0 & B1 & B2 & B3).
      destruct (quiet_none _ Q10) as (M0 & M1 & M2 & M3). destruct (quiet_none _ Q2) as (N0 & N1 & N2 & N3).
      exists (n0 ++ n5 ++ n10 ++ [ECheck (cf_path c0) (map db_ident used) (ignores_of O c0) (given ans) report] ++ n2 ++ new).
      assert (CK : checks (n0 ++ n5 ++ n10 ++ [ECheck (cf_path c0) (map db_ident used) (ignores_of O c0) (given ans) report] ++ n2 ++ new) = ck :: checks new)
        by (rewrite !checks_app, A0, B0, M0, N0; reflexivity).
      rewrite CK, !loads_app, !failures_app, !writes_app, A1, A2, A3, B1, B2, B3, M1, M2, M3, N1, N2, N3, L1, L2, L3.
      split; [rewrite T, T2, T10, T5; cbn [s_trace s3]; rewrite T0, <- !app_assoc; reflexivity|].
      split; [reflexivity|]. split; [reflexivity|]. split; [reflexivity|].
      split; [unfold goods; cbn [filter]; rewrite Er; constructor; [exists k; now constructor|exact Fa]|].
      split.
      { rewrite R, R2, Hr10, Hr5. cbn [s_results s3]. rewrite Hr0. destruct (o_json O); [|reflexivity]. cbn. now rewrite <- app_assoc. }
      split.
      { rewrite X. unfold exit_after. cbn [existsb]. rewrite Er. cbn [orb]. destruct (existsb _ fs); [reflexivity|].
        change (ck_report ck) with report. destruct (has_known report); cbn [andb orb]; [|reflexivity]. destruct (Z.eqb_spec exit 0); [reflexivity|].
        apply Z.eqb_neq in n. now rewrite n. }
      split; [exact Y|]. rewrite Z0, Hf2, Hf10, Hf5. exact Hf0.
Qed.

(** ** loading *)
Lemma load_ident W cache c off batch names d w reqs :
  load_db W cache c off batch names = (Ok (inr d), w, reqs) -> db_ident d = identifier c.
Proof.
  unfold load_db. destruct (seqb (dc_type c) "zip").
  - destruct (zip_load _ _ _ _ _ _ _ _) as [[r w'] reqs']. intros H. injection H as H _ _.
    destruct r as [[e|[db date]]|]; cbn in H; try discriminate. now injection H as <-.
  - destruct (seqb (dc_type c) "api"); [|destruct (seqb (dc_type c) "dir")]; intros H; injection H as H _ _; [| |discriminate].
    + destruct (new_api_db _ _ _ _ _ _) as [e|a] eqn:N; [discriminate|]. injection H as <-. cbn.
      unfold new_api_db in N. destruct off; [discriminate|]. destruct (batch <? 1)%Z; [discriminate|]. destruct (w_parse_uri W (dc_url c)); [|discriminate]. now injection N as <-.
    + destruct (dir_load _ _ _ _ _ _); [discriminate|]. now injection H as <-.
Qed.
Lemma loaded_idents cache names cs ds fs : loaded E O cache names cs ds fs -> NoDup (map identifier cs) ->
  NoDup (map db_ident ds) /\ incl fs cs
  /\ (forall id, In id (map db_ident ds) <-> In id (map identifier cs) /\ ~ In id (map identifier fs)).
Proof.
  induction 1 as [|c cs d ds fs L Ld IH|c cs e ds fs L Ld IH]; cbn; intros ND.
  - split; [constructor|]. split; [apply incl_refl|]. tauto.
  - inversion ND as [|? ? N1 N2]; subst. destruct (IH N2) as (D1 & I1 & A1). destruct L as (ca & w & rq & _ & L). apply load_ident in L. rewrite L.
    assert (NF : ~ In (identifier c) (map identifier fs)).
    { intros X. apply N1. apply in_map_iff in X as (y & Y1 & Y2). rewrite <- Y1. apply in_map. now apply I1. }
    split; [constructor; [rewrite A1; tauto|exact D1]|]. split; [intros x X; right; now apply I1|].
    intros id. rewrite A1. split; [intros [<-|[X Y]]; auto|]. intros [[<-|X] Y]; auto.
  - inversion ND as [|? ? N1 N2]; subst. destruct (IH N2) as (D1 & I1 & A1).
    split; [exact D1|]. split; [intros x [<-|X]; [now left|right; now apply I1]|].
    intros id. rewrite A1. split.
    + intros [X Y]. split; [now right|]. intros [<-|Z0]; contradiction.
    + intros [[<-|X] Y]; [exfalso; apply Y; now left|]. split; [exact X|tauto].
Qed.
Lemma load_loop_spec cache0 names cs : forall s ds b s', (forall path, cached E O cache0 path (s_cache s path)) -> load_loop E O cs names s = (Ok (ds, b), s') ->
  exists new, s_trace s' = s_trace s ++ new /\ checks new = [] /\ writes new = [] /\ loads new = cs
   /\ loaded E O cache0 names cs ds (failures new) /\ b = negb (Nat.eqb (List.length (failures new)) 0)
   /\ s_heap s' = s_heap s /\ s_files s' = s_files s /\ s_results s' = s_results s /\ s_dbs s' = s_dbs s.
Proof.
  induction cs as [|c cs IH]; intros s ds b s' CA H; cbn [load_loop] in H.
  - injection H as <- <- <-. exists []. cbn. rewrite app_nil_r. repeat split. constructor.
  - step H u0 sp Hp0. assert (K : still s sp) by (eapply keeps_at; [|exact Hp0]; ss).
    assert (KC : same_cache s sp) by (eapply keeps_at; [|exact Hp0]; kk). clear Hp0. step H u s1 He. unfold emit in He. injection He as _ <-. set (s1 := mkSt _ _ _ _ _ _ _) in H.
    step H cache s2 Hg. injection Hg as <- <-. destruct (load_db _ _ _ _ _ _) as [[r w] reqs] eqn:L.
    assert (CA1 : forall path, cached E O cache0 path (s_cache s1 path)) by (intros path; cbn [s_cache s1]; rewrite KC; apply CA).
    step H ur sr Hreq. assert (K0 : still s1 sr) by (eapply keeps_at; [|exact Hreq]; ss).
    clear Hreq. step H uc sc Hset.
    assert (K1 : still sr sc) by (eapply keeps_at; [|exact Hset]; ss).
    assert (CA2 : forall path, cached E O cache0 path (s_cache sc path)).
    { intros path. injection Hset as _ <-. cbn [s_cache]. destruct w as [content|]; [|apply CA1].
      unfold file_set. destruct (seqb_spec path (e_cache_path E (dc_url c))) as [->|]; [|apply CA1].
      eapply ca_saved; [reflexivity| |exact L]. apply CA1. }
    clear Hset. step H x s5 Hx. unfold lift in Hx. injection Hx as -> <-.
    pose proof (still_trans _ _ _ K0 K1) as [[n1 T1 Q1 Hh1 Hf1 Hr1] D1]. clear K0 K1.
    destruct K as [[n0 T0 Q0 Hh0 Hf0 Hr0] D0].
    destruct (quiet_none _ Q0) as (A0 & A1 & A2 & A3). destruct (quiet_none _ Q1) as (B0 & B1 & B2 & B3).
    destruct x as [e|db].
    + step H u2 s6 He. unfold emit in He. injection He as _ <-. set (s6 := mkSt _ _ _ _ _ _ _) in H.
      assert (Sl : Still (print_load_err E e)) by (unfold print_load_err; ss).
      step H u3 s7 Hp. pose proof (keeps_at _ _ _ _ _ Sl Hp) as [[n2 T2 Q2 Hh2 Hf2 Hr2] D2].
      destruct (quiet_none _ Q2) as (M0 & M1 & M2 & M3).
      assert (KC2 : same_cache s6 s7) by (eapply keeps_at; [|exact Hp]; unfold print_load_err; kk).
      step H y s8 Hy. injection H as <- <- <-. destruct y as [ds' b'].
      apply IH in Hy; [|intros path; rewrite KC2; apply CA2]. destruct Hy as (new & T & C1 & C2 & C3 & Ld & Hb & Hh & Hf & Hr & Hd).
      exists (n0 ++ [ELoad c] ++ n1 ++ [ELoadFailed c e] ++ n2 ++ new).
      rewrite !checks_app, !writes_app, !loads_app, !failures_app, A0, A1, A2, A3, B0, B1, B2, B3, M0, M1, M2, M3, C1, C2, C3.
      split; [rewrite T, T2; cbn [s_trace s6]; rewrite T1; cbn [s_trace s1]; rewrite T0, <- !app_assoc; reflexivity|].
      split; [reflexivity|]. split; [reflexivity|]. split; [reflexivity|]. cbn [failures flat_map app fst snd].
      split; [apply ld_fail with e; [exists (s_cache s1 (e_cache_path E (dc_url c))), w, reqs; split; [apply CA1|exact L]|exact Ld]|].
      split; [reflexivity|]. rewrite Hh, Hh2, Hf, Hf2, Hr, Hr2, Hd, D2. cbn. rewrite Hh1, Hf1, Hr1, D1. cbn. auto.
    + step H u3 s7 Hp. assert (K : still sc s7) by (eapply keeps_at; [|exact Hp]; ss).
      assert (KC2 : same_cache sc s7) by (eapply keeps_at; [|exact Hp]; kk). clear Hp.
      destruct K as [[n2 T2 Q2 Hh2 Hf2 Hr2] D2]. destruct (quiet_none _ Q2) as (M0 & M1 & M2 & M3).
      step H y s8 Hy. injection H as <- <- <-. destruct y as [ds' b'].
      apply IH in Hy; [|intros path; rewrite KC2; apply CA2]. destruct Hy as (new & T & C1 & C2 & C3 & Ld & Hb & Hh & Hf & Hr & Hd).
      exists (n0 ++ [ELoad c] ++ n1 ++ n2 ++ new).
      rewrite !checks_app, !writes_app, !loads_app, !failures_app, A0, A1, A2, A3, B0, B1, B2, B3, M0, M1, M2, M3, C1, C2, C3.
      split; [rewrite T, T2, T1; cbn [s_trace s1]; rewrite T0, <- !app_assoc; reflexivity|].
      split; [reflexivity|]. split; [reflexivity|]. split; [reflexivity|]. cbn [failures flat_map app fst snd].
      split; [apply ld_ok; [exists (s_cache s1 (e_cache_path E (dc_url c))), w, reqs; split; [apply CA1|exact L]|exact Ld]|].
      split; [exact Hb|]. rewrite Hh, Hh2, Hf, Hf2, Hr, Hr2, Hd, D2. cbn. rewrite Hh1, Hf1, Hr1, D1. cbn. auto.
Qed.

(** ** reading *)
Definition mild (s s' : St) : Prop :=
  (exists new, s_trace s' = s_trace s ++ new /\ forallb quiet new = true)
  /\ s_files s' = s_files s /\ s_results s' = s_results s /\ s_dbs s' = s_dbs s.
Lemma mild_refl s : mild s s.
Proof. repeat split. exists []. cbn. now rewrite app_nil_r. Qed.
Lemma mild_trans a b c : mild a b -> mild b c -> mild a c.
Proof.
  intros ((n1 & T1 & Q1) & F1 & R1 & D1) ((n2 & T2 & Q2) & F2 & R2 & D2). repeat split; try congruence.
  exists (n1 ++ n2). now rewrite T2, T1, app_assoc, forallb_app, Q1, Q2.
Qed.
Lemma still_mild s s' : still s s' -> mild s s'.
Proof. intros [[new T Q H F R] D]. repeat split; auto. eauto. Qed.
Lemma load_cfg_spec path s x s' : load_cfg E path s = (Ok x, s') -> still s s'
  /\ match load_config (w_parse_uri (e_world E)) (e_dec_yaml E) (s_files s) path with
     | inl e => x = inl e | inr (c, _) => x = inr c end.
Proof.
  unfold load_cfg. intros H. step_still H. step H fs s1 Hg. injection Hg as <- <-.
  assert (Q : s_files s0 = s_files s) by (destruct K as [[] _]; auto). rewrite Q in H.
  destruct (load_config _ _ _ _) as [e|[c errs]].
  - injection H as <- <-. auto.
  - unfold report_db_errs in H. step_still H. injection H as <- <-. split; [eapply still_trans; eauto|reflexivity].
Qed.
Lemma still_files s s' : still s s' -> s_files s' = s_files s. Proof. intros [[] _]; auto. Qed.
Lemma still_heap s s' : still s s' -> s_heap s' = s_heap s. Proof. intros [[] _]; auto. Qed.
Lemma find_cfg_spec dir s x s' : find_cfg E dir s = (Ok x, s') -> still s s'
  /\ match find_config (w_parse_uri (e_world E)) (e_dec_yaml E) (s_files s) dir with
     | inl e => x = inl e | inr (c, _) => x = inr c end.
Proof.
  unfold find_cfg, find_config. intros H. step H x1 s1 H1. apply load_cfg_spec in H1 as [K1 H1].
  destruct (load_config _ _ (s_files s) _) as [e|[c errs]]; subst x1.
  - destruct e as [p|p|p].
    + step H y s2 H2. apply load_cfg_spec in H2 as [K2 H2]. rewrite (still_files _ _ K1) in H2.
      pose proof (still_trans _ _ _ K1 K2) as K12.
      destruct (load_config _ _ (s_files s) _) as [e'|[c' errs']]; subst y.
      * destruct e'; injection H as <- <-; auto.
      * injection H as <- <-. auto.
    + injection H as <- <-. auto.
    + injection H as <- <-. auto.
  - injection H as <- <-. auto.
Qed.

Definition file_of (h : list Config) (f : LFile) (r : reading) : Prop :=
  match r with
  | Unusable => l_err f <> None
  | Usable l c => l_err f = None /\ l_lock f = l /\ l_cfg f < List.length h /\ nth (l_cfg f) h empty_config = c
  end.
Lemma file_of_more h more f r : file_of h f r -> file_of (h ++ more) f r.
Proof. destruct r; cbn; [auto|]. intros (A & B & C & D). rewrite app_length, app_nth1 by exact C. repeat split; auto. lia. Qed.
Definition own_addresses (lo hi : nat) (files : list LFile) : Prop :=
  NoDup (map l_cfg (goods files)) /\ Forall (fun f => lo <= l_cfg f < hi) (goods files).
Lemma own_cons lo hi f files : lo <= l_cfg f -> own_addresses (S (l_cfg f)) hi files -> S (l_cfg f) <= hi -> own_addresses lo hi (f :: files).
Proof.
  intros H [N F] H2. unfold own_addresses, goods in *. cbn [filter]. destruct (l_err f).
  - split; [exact N|]. eapply Forall_impl; [|exact F]. cbn. intros; lia.
  - cbn. split.
    + constructor; [|exact N]. intros I. apply in_map_iff in I as (g & G1 & G2). eapply Forall_forall in F; [|exact G2]. lia.
    + constructor; [lia|]. eapply Forall_impl; [|exact F]. cbn. intros; lia.
Qed.
Lemma own_skip lo hi f files : l_err f <> None -> own_addresses lo hi files -> own_addresses lo hi (f :: files).
Proof. intros H. unfold own_addresses, goods. cbn [filter]. destruct (l_err f); [auto|contradiction]. Qed.
Definition mode_local (m : cfg_mode) : bool := match m with Beside => true | Same _ => false end.
Definition mode_shared (m : cfg_mode) : bool := match m with Beside => false | Same c => seqb (cf_path c) "" end.
Lemma read_all_spec mode paths : forall cfg s files s',
  read_all E O paths (mode_local mode) cfg s = (Ok files, s') ->
  (forall c, mode = Same c -> cfg < List.length (s_heap s) /\ nth cfg (s_heap s) empty_config = c) ->
  mild s s' /\ (exists more, s_heap s' = s_heap s ++ more /\ (mode_shared mode = true -> more = []))
  /\ (exists rs, Forall2 (reads E O (s_files s) mode) paths rs /\ Forall2 (file_of (s_heap s')) files rs)
  /\ (if mode_shared mode then Forall (fun f => l_cfg f = cfg) files
      else own_addresses (List.length (s_heap s)) (List.length (s_heap s')) files).
Proof.
  induction paths as [|p ps IH]; intros cfg s files s' H I; cbn [read_all] in H.
  - injection H as <- <-. split; [apply mild_refl|]. split; [exists []; now rewrite app_nil_r|].
    split; [exists []; split; constructor|]. destruct (mode_shared mode); [constructor|split; constructor].
  - destruct mode as [|c]; cbn [mode_local] in H.
    + step H x s1 Hf. apply find_cfg_spec in Hf as [K1 Hf].
      destruct (find_config _ _ _ _) as [e|[con errs]] eqn:Fc; subst x.
      * step H rest s2 Hr. injection H as <- <-. apply (IH cfg) in Hr; [|discriminate].
        destruct Hr as (M & (more & Hm & _) & (rs & R1 & R2) & A). rewrite (still_files _ _ K1), (still_heap _ _ K1) in *.
        split; [eapply mild_trans; [apply still_mild|]; eauto|]. split; [exists more; split; [exact Hm|discriminate]|].
        split; [|apply own_skip; [discriminate|exact A]].
        exists (Unusable :: rs). split; constructor; auto; [|discriminate]. apply rd_config. eapply cf_bad; exact Fc.
      * step H addr s2 Ha. unfold alloc in Ha. injection Ha as <- <-. cbn beta zeta in H.
        set (s2 := mkSt _ _ _ _ _ _ _) in H.
        step H x s3 Hx. unfold lift in Hx. injection Hx as Hx <-. step H rest s4 Hr. injection H as <- <-.
        apply (IH (List.length (s_heap s1))) in Hr; [|discriminate].
        destruct Hr as (M & (more & Hm & _) & (rs & R1 & R2) & A). cbn [s_heap s_files s2] in *. rewrite (still_files _ _ K1), (still_heap _ _ K1) in *.
        assert (M2 : mild s s2) by (destruct (still_mild _ _ K1) as (T & F & R & D); repeat split; auto).
        assert (F0 : file_of (s_heap s4) (mkLFile (fst x) (List.length (s_heap s)) (snd x))
                      (match snd x with Some _ => Unusable | None => Usable (fst x) con end)).
        { rewrite Hm. apply file_of_more. destruct (snd x) eqn:Sx; cbn; [congruence|].
          rewrite app_length, nth_middle. cbn. repeat split; lia. }
        split; [eapply mild_trans; eauto|]. split; [exists (con :: more); split; [now rewrite Hm, <- app_assoc|discriminate]|].
        split.
        -- exists ((match snd x with Some _ => Unusable | None => Usable (fst x) con end) :: rs).
           split; constructor; auto. destruct x as [l [e|]]; cbn [fst snd].
           ++ eapply rd_parse; [eapply cf_beside; exact Fc|exact Hx].
           ++ apply rd_ok; [eapply cf_beside; exact Fc|exact Hx].
        -- cbn [mode_shared]. apply own_cons; cbn [l_cfg]; auto.
           ++ rewrite app_length in A. cbn in A. now rewrite Nat.add_1_r in A.
           ++ rewrite Hm, !app_length. cbn. lia.
    + destruct (I c eq_refl) as [I1 I2]. step H c0 s0 Hl. unfold load_at in Hl. injection Hl as <- <-. rewrite I2 in H.
      destruct (seqb (cf_path c) "") eqn:Pc; cbn [negb] in H; cbn beta zeta in H.
      * step H x s3 Hx. unfold lift in Hx. injection Hx as Hx <-. step H rest s4 Hr. injection H as <- <-.
        apply (IH cfg) in Hr; [|exact I]. cbn [mode_shared] in *. rewrite Pc in *.
        destruct Hr as (M & (more & Hm & Hn) & (rs & R1 & R2) & A). rewrite (Hn eq_refl), app_nil_r in Hm.
        split; [exact M|]. split; [exists []; split; [now rewrite app_nil_r|auto]|].
        split; [|constructor; auto].
        exists ((match snd x with Some _ => Unusable | None => Usable (fst x) c end) :: rs). split; constructor; auto.
        -- destruct x as [l [e|]]; cbn [fst snd]; [eapply rd_parse; [constructor|exact Hx]|apply rd_ok; [constructor|exact Hx]].
        -- rewrite Hm. destruct (snd x) eqn:Sx; cbn; [congruence|]. auto.
      * step H addr s2 Ha. unfold alloc in Ha. injection Ha as <- <-. set (s2 := mkSt _ _ _ _ _ _ _) in H.
        step H x s3 Hx. unfold lift in Hx. injection Hx as Hx <-. step H rest s4 Hr. injection H as <- <-.
        apply (IH (List.length (s_heap s))) in Hr.
        2:{ intros c1 Q. injection Q as <-. cbn. rewrite app_length, nth_middle. cbn. split; [lia|reflexivity]. }
        cbn [mode_shared] in *. rewrite Pc in *.
        destruct Hr as (M & (more & Hm & _) & (rs & R1 & R2) & A). cbn [s_heap s_files s2] in *.
        assert (M2 : mild s s2) by (repeat split; auto; exists []; cbn; rewrite app_nil_r; auto).
        split; [eapply mild_trans; eauto|]. split; [exists (c :: more); split; [now rewrite Hm, <- app_assoc|discriminate]|].
        split.
        -- exists ((match snd x with Some _ => Unusable | None => Usable (fst x) c end) :: rs).
           split; constructor; auto.
           ++ destruct x as [l [e|]]; cbn [fst snd]; [eapply rd_parse; [constructor|exact Hx]|apply rd_ok; [constructor|exact Hx]].
           ++ rewrite Hm. apply file_of_more. destruct (snd x) eqn:Sx; cbn; [congruence|].
              rewrite app_length, nth_middle. cbn. repeat split; lia.
        -- apply own_cons; cbn [l_cfg]; auto.
           ++ rewrite app_length in A. cbn in A. now rewrite Nat.add_1_r in A.
           ++ rewrite Hm, !app_length. cbn. lia.
Qed.

(** ** the databases of each config *)
Definition adjusted (l : Lockfile) (c : Config) : Config :=
  mkCfg (cf_path c) (cf_ignore c)
    (unique_db_configs [if o_no_dbs O then [] else cf_dbs c;
       (if o_use_api O then [api_config] else [])
       ++ (if o_use_dbs O then map ecosystem_config (collect_ecosystems E [mkLFile l 0 None]) else [])]).
Lemma nth_upd_same {A} (l : list A) i a d : i < List.length l -> nth i (upd l i a) d = a.
Proof. revert i. induction l as [|x l IH]; intros [|i] H; cbn in *; try lia; [reflexivity|]. apply IH. lia. Qed.
Lemma nth_upd_other {A} (l : list A) i j a d : i <> j -> nth j (upd l i a) d = nth j l d.
Proof. revert i j. induction l as [|x l IH]; intros [|i] [|j] H; cbn; auto; try lia. Qed.
Lemma upd_length {A} (l : list A) i a : List.length (upd l i a) = List.length l.
Proof. revert i. induction l as [|x l IH]; intros [|i]; cbn; auto. Qed.
Definition with_heap (s : St) (h : list Config) : St :=
  mkSt (s_trace s) (s_errored s) (s_results s) h (s_dbs s) (s_files s) (s_cache s).
Lemma with_heap_same s : with_heap s (s_heap s) = s. Proof. now destruct s. Qed.
Lemma adjust_good f s : l_err f = None -> adjust_one E O f s
  = (Ok tt, with_heap s (upd (s_heap s) (l_cfg f) (adjusted (l_lock f) (nth (l_cfg f) (s_heap s) empty_config)))).
Proof. intros H. unfold adjust_one. rewrite H. unfold bind, get, set_heap, with_heap, adjusted, collect_ecosystems. cbn [fold_left l_err l_lock]. now rewrite H. Qed.
Lemma adjust_bad f s : l_err f <> None -> adjust_one E O f s = (Ok tt, s).
Proof. unfold adjust_one. now destruct (l_err f). Qed.
Lemma adjust_own lo hi : forall files s, own_addresses lo hi files -> hi <= List.length (s_heap s) ->
  exists h', adjust_all E O files s = (Ok tt, with_heap s h') /\ List.length h' = List.length (s_heap s)
   /\ (forall f, In f (goods files) -> nth (l_cfg f) h' empty_config = adjusted (l_lock f) (nth (l_cfg f) (s_heap s) empty_config))
   /\ (forall i, ~ In i (map l_cfg (goods files)) -> nth i h' empty_config = nth i (s_heap s) empty_config).
Proof.
  unfold adjust_all. induction files as [|f files IH]; intros s [N F] L; cbn [each].
  - exists (s_heap s). rewrite with_heap_same. repeat split. intros f [].
  - destruct (l_err f) as [e|] eqn:Er.
    + unfold goods in N, F. cbn [filter] in N, F. rewrite Er in N, F. destruct (IH s (conj N F) L) as (h' & H1 & H2 & H3 & H4).
      exists h'. unfold bind. rewrite adjust_bad by congruence. split; [exact H1|]. split; [exact H2|].
      unfold goods in *. cbn [filter]. rewrite Er. auto.
    + unfold goods in N, F. cbn [filter] in N, F. rewrite Er in N, F. inversion N as [|? ? N1 N2]; subst. inversion F as [|? ? F1 F2]; subst.
      set (c := adjusted (l_lock f) (nth (l_cfg f) (s_heap s) empty_config)).
      destruct (IH (with_heap s (upd (s_heap s) (l_cfg f) c))) as (h' & H1 & H2 & H3 & H4); [split; assumption|cbn; now rewrite upd_length|].
      cbn [with_heap s_heap] in H2, H3, H4. rewrite upd_length in H2.
      exists h'. unfold bind. rewrite adjust_good by exact Er. fold c. split; [exact H1|]. split; [exact H2|].
      unfold goods in *. cbn [filter]. rewrite Er. split.
      * intros g [<-|G].
        -- rewrite H4 by exact N1. apply nth_upd_same. lia.
        -- rewrite H3 by exact G. f_equal. apply nth_upd_other. intros Q. apply N1. rewrite Q. now apply in_map.
      * intros i Hi. cbn in Hi. rewrite H4 by tauto. apply nth_upd_other. tauto.
Qed.
Lemma adjust_shared cfg : forall files s, Forall (fun f => l_cfg f = cfg) files -> cfg < List.length (s_heap s) ->
  exists h', adjust_all E O files s = (Ok tt, with_heap s h') /\ List.length h' = List.length (s_heap s)
   /\ nth cfg h' empty_config = fold_left (fun c f => adjusted (l_lock f) c) (goods files) (nth cfg (s_heap s) empty_config)
   /\ (forall i, i <> cfg -> nth i h' empty_config = nth i (s_heap s) empty_config).
Proof.
  unfold adjust_all. induction files as [|f files IH]; intros s F L; cbn [each].
  - exists (s_heap s). rewrite with_heap_same. repeat split.
  - inversion F as [|? ? F1 F2]; subst. destruct (l_err f) as [e|] eqn:Er.
    + destruct (IH s F2 L) as (h' & H1 & H2 & H3 & H4).
      exists h'. unfold bind. rewrite adjust_bad by congruence. split; [exact H1|]. split; [exact H2|].
      unfold goods in *. cbn [filter]. rewrite Er. auto.
    + set (c := adjusted (l_lock f) (nth (l_cfg f) (s_heap s) empty_config)).
      destruct (IH (with_heap s (upd (s_heap s) (l_cfg f) c)) F2) as (h' & H1 & H2 & H3 & H4); [cbn; now rewrite upd_length|].
      cbn [with_heap s_heap] in H2, H3, H4. rewrite upd_length in H2. rewrite nth_upd_same in H3 by exact L.
      exists h'. unfold bind. rewrite adjust_good by exact Er. fold c. split; [exact H1|]. split; [exact H2|].
      unfold goods in *. cbn [filter]. rewrite Er. split; [exact H3|]. intros i Hi. rewrite H4 by exact Hi. apply nth_upd_other. auto.
Qed.
Hypothesis SO : SorterOk (e_sort E).
Hypothesis IT : IterOk (e_iter E).
Lemma collect_in l e : In e (collect_ecosystems E [mkLFile l 0 None]) <-> e <> "" /\ exists p, In p (lf_pkgs l) /\ p_eco p = e.
Proof.
  unfold collect_ecosystems. cbn [fold_left l_err l_lock].
  rewrite (eco_set_in (fun x => x)). destruct (ecosystems_spec (e_sort E) (e_iter E) (lf_pkgs l) SO IT) as [_ H].
  split.
  - intros [[]|(x & X & ->)]. now apply H.
  - intros X. right. exists e. split; [now apply H|reflexivity].
Qed.
Lemma adjusted_all l c : NoDup (map identifier (cf_dbs (adjusted l c)))
  /\ (forall d, In d (cf_dbs (adjusted l c)) -> wanted O l c d)
  /\ forall id, In id (map identifier (cf_dbs (adjusted l c))) <-> exists d, wanted O l c d /\ identifier d = id.
Proof.
  cbn [adjusted cf_dbs]. set (cs := [_; _]). destruct (unique_once cs) as (U1 & U2 & U3). split; [exact U1|].
  assert (W : forall d, In d (List.concat cs) <-> wanted O l c d).
  { intros d. unfold cs. cbn [List.concat]. rewrite app_nil_r, !in_app_iff. unfold wanted.
    assert (A1 : In d (if o_no_dbs O then [] else cf_dbs c) <-> o_no_dbs O = false /\ In d (cf_dbs c))
      by (destruct (o_no_dbs O); cbn; split; try tauto; intros []; discriminate).
    assert (A2 : In d (if o_use_api O then [api_config] else []) <-> o_use_api O = true /\ d = api_config)
      by (destruct (o_use_api O); cbn; split; try tauto; intros H; intuition (try congruence)).
    assert (A3 : In d (if o_use_dbs O then map ecosystem_config (collect_ecosystems E [mkLFile l 0 None]) else [])
       <-> o_use_dbs O = true /\ exists p, In p (lf_pkgs l) /\ p_eco p <> "" /\ d = ecosystem_config (p_eco p)).
    { destruct (o_use_dbs O); [|split; [intros []|intros [X _]; discriminate]]. rewrite in_map_iff. split.
      - intros (e & <- & X). apply collect_in in X as (X1 & p & X2 & <-). eauto.
      - intros (_ & p & X1 & X2 & ->). exists (p_eco p). split; [reflexivity|]. apply collect_in. eauto. }
    rewrite A1, A2, A3. reflexivity. }
  split; [intros d H; apply W, U2, H|]. intros id. split.
  - intros H. apply in_map_iff in H as (d & <- & H). exists d. split; [|reflexivity]. apply W, U2, H.
  - intros (d & H & <-). apply U3, W, H.
Qed.
Lemma adjusted_ids l c : NoDup (map identifier (cf_dbs (adjusted l c)))
  /\ forall id, In id (map identifier (cf_dbs (adjusted l c))) <-> exists d, wanted O l c d /\ identifier d = id.
Proof. destruct (adjusted_all l c) as (A & _ & B). auto. Qed.
Lemma fold_from : o_no_dbs O = false -> forall gs c d, In d (cf_dbs (fold_left (fun c f => adjusted (l_lock f) c) gs c)) ->
  In d (cf_dbs c) \/ exists f, In f gs /\ wanted O (l_lock f) empty_config d.
Proof.
  intros ND. induction gs as [|f gs IH]; intros c d H; cbn [fold_left] in H; [now left|]. destruct (IH _ _ H) as [H1|(g & G & W)].
  - destruct (adjusted_all (l_lock f) c) as (_ & A & _). destruct (A d H1) as [[_ W]|W]; [now left|]. right. exists f. split; [now left|]. now right.
  - right. exists g. split; [now right|exact W].
Qed.
Definition usable_of (h : list Config) (f : LFile) : Lockfile * Config := (l_lock f, nth (l_cfg f) h empty_config).
Lemma files_usables h files rs : Forall2 (file_of h) files rs -> usables rs = map (usable_of h) (goods files).
Proof.
  unfold usables, goods. induction 1 as [|f r files rs H F IH]; [reflexivity|]. cbn [flat_map filter].
  destruct r as [|l c]; cbn in H.
  - destruct (l_err f); [exact IH|contradiction].
  - destruct H as (H1 & H2 & H3 & H4). rewrite H1. cbn [map app]. rewrite IH. unfold usable_of at 2. congruence.
Qed.
Lemma fold_shared : o_no_dbs O = false -> forall gs c id,
  In id (map identifier (cf_dbs (fold_left (fun c f => adjusted (l_lock f) c) gs c))) <->
  In id (map identifier (cf_dbs c)) \/ exists f d, In f gs /\ wanted O (l_lock f) empty_config d /\ identifier d = id.
Proof.
  intros ND. induction gs as [|f gs IH]; intros c id; cbn [fold_left].
  - split; [tauto|]. intros [H|(f & d & [] & _)]. exact H.
  - rewrite IH. rewrite (proj2 (adjusted_ids (l_lock f) c) id). split.
    + intros [(d & [[_ W]|W] & <-)|(g & d & G & W & <-)].
      * left. now apply in_map.
      * right. exists f, d. split; [now left|]. split; [now right|reflexivity].
      * right. exists g, d. split; [now right|auto].
    + intros [H|(g & d & [<-|G] & W & <-)].
      * left. apply in_map_iff in H as (d & <- & H). exists d. split; [left; auto|reflexivity].
      * left. exists d. split; [|reflexivity]. destruct W as [[_ []]|W]. now right.
      * right. eauto.
Qed.
Lemma fold_path gs c : let c' := fold_left (fun c f => adjusted (l_lock f) c) gs c in cf_path c' = cf_path c /\ cf_ignore c' = cf_ignore c.
Proof. revert c. induction gs as [|f gs IH]; intros c; cbn; [auto|]. destruct (IH (adjusted (l_lock f) c)) as [A B]. split; [exact A|exact B]. Qed.
Lemma fold_nodup gs c : gs <> [] -> NoDup (map identifier (cf_dbs (fold_left (fun c f => adjusted (l_lock f) c) gs c))).
Proof.
  intros H. destruct (exists_last H) as (gs' & f & ->). rewrite fold_left_app. cbn [fold_left]. apply adjusted_ids.
Qed.

(** the databases, after adjusting *)
Lemma shared_iff m : (forall c, m = Same c -> cf_path c = "" -> c = empty_config) -> (mode_shared m = true <-> shared m).
Proof.
  intros H. unfold shared. destruct m as [|c]; cbn; [split; discriminate|]. rewrite seqb_eq. split.
  - intros Q. now rewrite (H c eq_refl Q).
  - intros Q. injection Q as ->. reflexivity.
Qed.
Lemma adjust_spec mode cfg files rs s lo :
  (forall c, mode = Same c -> cf_path c = "" -> c = empty_config) ->
  (if mode_shared mode then Forall (fun f => l_cfg f = cfg) files /\ cfg < List.length (s_heap s) /\ nth cfg (s_heap s) empty_config = empty_config
   else own_addresses lo (List.length (s_heap s)) files) ->
  Forall2 (file_of (s_heap s)) files rs ->
  exists h', adjust_all E O files s = (Ok tt, with_heap s h')
   /\ Forall (fun f => NoDup (map identifier (cf_dbs (nth (l_cfg f) h' empty_config)))
         /\ in_effect O (usables rs) mode (l_lock f) (nth (l_cfg f) (s_heap s) empty_config) (nth (l_cfg f) h' empty_config)) (goods files)
   /\ Forall (fun f => forall d, In d (cf_dbs (nth (l_cfg f) h' empty_config)) ->
         asks O (usables rs) mode (l_lock f) (nth (l_cfg f) (s_heap s) empty_config) d) (goods files).
Proof.
  intros SE HA HF. pose proof (shared_iff mode SE) as SI. pose proof (files_usables _ _ _ HF) as HU.
  destruct (mode_shared mode) eqn:MS.
  - destruct HA as (F & L & C). destruct (adjust_shared cfg files s F L) as (h' & A1 & A2 & A3 & A4). rewrite C in A3.
    assert (UC : forall g, In g (goods files) -> usable_of (s_heap s) g = (l_lock g, empty_config)).
    { intros g G'. unfold usable_of. f_equal. apply filter_In in G' as [G' _]. eapply Forall_forall in F; [|exact G']. now rewrite F. }
    assert (Fa : forall f, In f (goods files) -> l_cfg f = cfg) by (intros f G; apply filter_In in G as [G _]; eapply Forall_forall in F; eauto).
    exists h'. split; [exact A1|]. split.
    2:{ apply Forall_forall. intros f G d D. rewrite (Fa f G), A3 in D. rewrite (Fa f G), C. case_eq (o_no_dbs O); intros ND.
        - destruct (@exists_last _ (goods files)) as (gs & g & Hg); [intros Q; rewrite Q in G; destruct G|].
          rewrite Hg, fold_left_app in D. cbn [fold_left] in D. apply (proj1 (proj2 (adjusted_all _ _))) in D.
          eapply (as_last _ _ _ _ _ _ (map (usable_of (s_heap s)) gs) (l_lock g) empty_config); [now apply SI|exact ND| |destruct D as [[X _]|D]; [congruence|now right]].
          rewrite HU, Hg, map_app. cbn [map]. rewrite UC; [reflexivity|]. rewrite Hg. apply in_or_app. right. now left.
        - apply (fold_from ND) in D as [[]|(g & G' & W)]. eapply as_shared; eauto; [now apply SI|]. rewrite HU. rewrite <- (UC g G'). now apply in_map. }
    apply Forall_forall. intros f G.
    assert (Fc : l_cfg f = cfg) by (apply filter_In in G as [G _]; eapply Forall_forall in F; eauto).
    rewrite Fc, A3, C. split; [apply fold_nodup; intros Q; rewrite Q in G; destruct G|].
    destruct (fold_path (goods files) empty_config) as [P1 P2]. split; [exact P1|]. split; [exact P2|].
    intros id. case_eq (o_no_dbs O); intros ND.
    + destruct (@exists_last _ (goods files)) as (gs & g & Hg); [intros Q; rewrite Q in G; destruct G|].
      rewrite Hg, fold_left_app. cbn [fold_left]. rewrite (proj2 (adjusted_ids _ _) id).
      assert (Ug : usables rs = map (usable_of (s_heap s)) gs ++ [(l_lock g, empty_config)]).
      { rewrite HU, Hg, map_app. cbn [map]. rewrite UC; [reflexivity|]. rewrite Hg. apply in_or_app. right. now left. }
      split.
      * intros (d & W & <-). exists d. split; [|reflexivity]. eapply as_last; eauto; [now apply SI|].
        destruct W as [[X _]|W]; [congruence|now right].
      * intros (d & Ask & <-). exists d. split; [|reflexivity].
        inversion Ask as [m l c d' N W|m l c d' l0 c0 Sh Nd I W|m l c d' us' l0 c0 Sh Nd U W]; subst; [exfalso; apply N, SI; reflexivity|congruence|].
        rewrite Ug in U. apply app_inj_tail in U as [_ U]. injection U as <- <-. destruct W as [[X _]|W]; [congruence|now right].
    + rewrite (fold_shared ND). cbn [empty_config cf_dbs map In]. split.
      * intros [[]|(g & d & G' & W & <-)]. exists d. split; [|reflexivity]. eapply as_shared; eauto; [now apply SI|].
        rewrite HU. rewrite <- (UC g G'). now apply in_map.
      * intros (d & Ask & <-).
        inversion Ask as [m l c d' N W|m l c d' l0 c0 Sh Nd I W|m l c d' us' l0 c0 Sh Nd U W]; subst; [exfalso; apply N, SI; reflexivity| |congruence].
        right. rewrite HU in I. apply in_map_iff in I as (g & Ig & G'). rewrite (UC g G') in Ig. injection Ig as <- <-. eauto.
  - destruct (adjust_own lo _ files s HA (le_n _)) as (h' & A1 & A2 & A3 & A4). exists h'. split; [exact A1|]. split.
    2:{ apply Forall_forall. intros f G d D. rewrite (A3 f G) in D. apply as_own; [rewrite <- SI; discriminate|].
        now apply (proj1 (proj2 (adjusted_all _ _))) in D. }
    apply Forall_forall. intros f G. rewrite (A3 f G). destruct (adjusted_ids (l_lock f) (nth (l_cfg f) (s_heap s) empty_config)) as [D1 D2].
    split; [exact D1|]. split; [reflexivity|]. split; [reflexivity|]. intros id. rewrite D2. split.
    + intros (d & W & <-). exists d. split; [|reflexivity]. apply as_own; [rewrite <- SI; discriminate|exact W].
    + intros (d & Ask & <-). exists d. split; [|reflexivity].
      inversion Ask as [m l c d' N W|m l c d' l0 c0 Sh Nd I W|m l c d' us' l0 c0 Sh Nd U W]; subst; [exact W| |]; apply SI in Sh; discriminate.
Qed.
End Run.
