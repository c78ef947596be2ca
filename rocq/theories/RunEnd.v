(** What follows about whole runs (C20, C33 to C39, C66). *)
From Verif Require Import GoStr GoStrFacts GoSort GoSortFacts Types Osv OsvSpec MemDB MemDBSpec MemDBProofs Path PathFacts Api ZipDB DirDB DbConfig Configer ConfigSpec ConfigProofs GoMap Lockfile LockfileSpec LockfileProofs Csv Ecosystems Json JsonRound Report ReportSpec ReportProofs Main MainSpec MainTrace MainProofs DiscoverProofs Surface RunProofs RunFacts ListProofs UpdateProofs.

(** ** every event *)
Lemma any_event E O fs cache r s' : IterOk (e_iter E) -> run E O (start fs cache) = (r, s') ->
  exists n s1, s_trace s' = n ++ doc_of E O s1 /\ Forall (allowed O) n.
Proof.
  intros IT H. apply run_trace in H as (s1 & H & T & _). exists (s_trace s1), s1. split; [exact T|].
  pose proof (body_allowed E O IT fs cache) as A. now rewrite H in A.
Qed.
Lemma offline_silent E O fs cache r s' : IterOk (e_iter E) -> o_offline O = true -> run E O (start fs cache) = (r, s') ->
  Forall (fun e => match e with EZip _ | EApi _ _ => False | _ => True end) (s_trace s').
Proof.
  intros IT OF H. apply any_event in H as (n & s1 & -> & A); [|exact IT]. apply Forall_app. split.
  - eapply Forall_impl; [|exact A]. intros [] Q; cbn in Q; auto; destruct Q; congruence.
  - unfold doc_of. destruct (o_json O); repeat constructor.
Qed.
Lemma errors_stderr E O fs cache r s' : IterOk (e_iter E) -> run E O (start fs cache) = (r, s') ->
  forall st t, In (EOut KErr st t) (s_trace s') -> st = Stderr.
Proof.
  intros IT H st t I. apply any_event in H as (n & s1 & T & A); [|exact IT]. rewrite T in I. apply in_app_or in I as [I|I].
  - rewrite Forall_forall in A. exact (A _ I).
  - unfold doc_of in I. destruct (o_json O); [destruct I as [I|[]]; discriminate|destruct I].
Qed.
Lemma json_stdout E O fs cache r s' : IterOk (e_iter E) -> o_json O = true -> run E O (start fs cache) = (r, s') ->
  exists n d, s_trace s' = n ++ [EOut KDoc Stdout d] /\ stdout n = [] /\ messages KDoc n = [] /\ messages KRes n = [].
Proof.
  intros IT J H. apply any_event in H as (n & s1 & -> & A); [|exact IT]. unfold doc_of. rewrite J. exists n. eexists. split; [reflexivity|].
  clear - A J. induction A as [|e n Q A IH]; [auto|]. unfold stdout in *. cbn [flat_map]. destruct IH as (I1 & I2 & I3).
  destruct e as [[] [] t| | | | | | |]; cbn in *; rewrite ?J in *; try discriminate; try (destruct Q; discriminate); try contradiction; auto.
Qed.
Lemma list_only_output E O fs cache r s' : IterOk (e_iter E) -> o_list_pkgs O = true -> run E O (start fs cache) = (r, s') ->
  only_output (s_trace s').
Proof.
  intros IT L H. apply any_event in H as (n & s1 & -> & A); [|exact IT]. apply Forall_app. split.
  - eapply Forall_impl; [|exact A]. intros [] Q; cbn in Q; rewrite ?L in Q; try discriminate; try (destruct Q; discriminate); eauto. destruct Q as (_ & Q & _). discriminate.
  - unfold doc_of. destruct (o_json O); repeat constructor. eauto.
Qed.
(** nothing is read from or written to a config without one *)
Lemma no_config_untouched E O fs cache r s' : IterOk (e_iter E) -> o_no_config O = true -> run E O (start fs cache) = (r, s') ->
  Forall (fun e => match e with EReadConfig _ | EWriteConfig _ _ => False | _ => True end) (s_trace s').
Proof.
  intros IT OF H. apply any_event in H as (n & s1 & -> & A); [|exact IT]. apply Forall_app. split.
  - eapply Forall_impl; [|exact A]. intros [] Q; cbn in Q; auto; destruct Q; congruence.
  - unfold doc_of. destruct (o_json O); repeat constructor.
Qed.
(** ** the document *)
Lemma nums_arr l : forallb nums_ok l = true -> nums_ok (JArr l) = true. Proof. auto. Qed.
Lemma forallb_map_true {A B} (f : A -> B) (p : B -> bool) l : (forall a, p (f a) = true) -> forallb p (map f l) = true.
Proof. intros H. induction l; cbn; [reflexivity|]. now rewrite H. Qed.
Lemma fields_ok p : forallb (fun kv => nums_ok (snd kv)) (pkg_fields p) = true.
Proof. unfold pkg_fields, omit. destruct (seqb (p_commit p) ""), (seqb (p_eco p) ""), (seqb (p_cmp p) ""); reflexivity. Qed.
Lemma result_ok oj r : (forall v, nums_ok (oj v) = true) -> nums_ok (result_json oj r) = true.
Proof.
  intros NO. destruct r as [l|r]; cbn; rewrite andb_true_r; apply forallb_map_true; intros p; cbn [nums_ok pkg_vulns_json]; [apply fields_ok|].
  rewrite forallb_app, fields_ok. cbn. rewrite andb_true_r. apply andb_true_intro. split; apply forallb_map_true; exact NO.
Qed.
Lemma doc_parses oj rs : (forall v, nums_ok (oj v) = true) ->
  Json.parse_text (results_json oj rs) = Some (norm (JObj [("results", JArr (map (result_json oj) rs))])).
Proof.
  intros NO. unfold results_json. apply text_print_norm. cbn [nums_ok forallb fst snd andb]. rewrite andb_true_r.
  apply forallb_map_true. intros r. now apply result_ok.
Qed.
(** ** databases of a check *)
Lemma loads_ident E O cache names c d : loads_as E O cache names c (inr d) -> db_ident d = identifier c.
Proof.
  intros (before & w & reqs & _ & H). unfold load_db in H. destruct (seqb (dc_type c) "zip").
  - destruct (zip_load _ _ _ _ _ _ _ _) as [[[[e|[db date]]|] w0] r0]; cbn in H; inversion H; reflexivity.
  - destruct (seqb (dc_type c) "api").
    + unfold new_api_db in H. repeat match type of H with context [if ?b then _ else _] => destruct b end; try (inversion H; fail).
      destruct (w_parse_uri _ _); inversion H. reflexivity.
    + destruct (seqb (dc_type c) "dir"); [|inversion H]. destruct (dir_load _ _ _ _ _ _); inversion H. reflexivity.
Qed.
Lemma loaded_idents E O cache names cs ds fs : loaded E O cache names cs ds fs -> NoDup (map identifier cs) ->
  NoDup (map db_ident ds) /\ forall id, In id (map db_ident ds) <-> In id (map identifier cs) /\ ~ In id (map identifier fs).
Proof.
  assert (SUB : forall cs ds fs, loaded E O cache names cs ds fs -> incl (map identifier fs) (map identifier cs)).
  { induction 1 as [|c cs0 d ds0 fs0 L H IH|c cs0 e ds0 fs0 L H IH]; cbn; intros x X; [exact X|right; now apply IH|destruct X as [<-|X]; [now left|right; now apply IH]]. }
  induction 1 as [|c cs d ds fs L H IH|c cs e ds fs L H IH]; intros N; cbn; [split; [constructor|tauto]| |]; inversion N as [|? ? N1 N2]; subst;
    destruct (IH N2) as [I1 I2].
  - apply loads_ident in L. rewrite L. split.
    + constructor; [|exact I1]. rewrite I2. tauto.
    + intros id. split; [intros [<-|Q]|intros [[<-|Q] W]]; [split; [now left|]|split; [right|]; now apply I2 in Q|now left|right; apply I2; auto].
      intros X. apply N1. eapply SUB; eauto.
  - split; [exact I1|]. intros id. rewrite I2. split; [intros [Q W]; split; [now right|]|intros [[<-|Q] W]; [exfalso; apply W; now left|split; [exact Q|intros X; apply W; now right]]].
    intros [<-|X]; [apply N1, Q|exact (W X)].
Qed.
Lemma selects_map_in {A B} (P : A -> Prop) (f : A -> B) l s y : selects P l s -> (In y (map f s) <-> exists x, In x l /\ P x /\ f x = y).
Proof.
  intros S. rewrite in_map_iff. split; intros (x & X).
  - destruct X as [<- X]. apply (selects_in _ _ _ x S) in X as [X1 X2]. eauto.
  - destruct X as (X1 & X2 & X3). exists x. split; [exact X3|]. apply (selects_in _ _ _ x S). auto.
Qed.
Lemma selects_nodup {A B} (P : A -> Prop) (f : A -> B) l s : selects P l s -> NoDup (map f l) -> NoDup (map f s).
Proof.
  induction 1 as [|x l s Px S IH|x l s Px S IH]; intros N; cbn in *; [constructor| |]; inversion N as [|? ? N1 N2]; subst; [|auto].
  constructor; [|auto]. intros I. apply N1. apply in_map_iff in I as (z & <- & I). apply in_map. apply (selects_in _ _ _ z S) in I. tauto.
Qed.
Lemma session_dbs E O fs cache mode paths rs names ds tr i l c ck : session E O fs cache mode paths rs names ds tr ->
  nth_error (usables rs) i = Some (l, c) -> nth_error (checks tr) i = Some ck ->
  rp_lock (ck_report ck) = l /\ ck_cfg ck = cf_path c /\ ck_ignores ck = ignores_of O c /\ NoDup (ck_dbs ck)
  /\ (forall id, In id (ck_dbs ck) <-> (exists d, asks O (usables rs) mode l c d /\ identifier d = id) /\ ~ In id (map identifier (failures tr)))
  /\ exists k used ans, ck_dbs ck = map db_ident used /\ Forall2 (answers E k (lf_pkgs l)) used ans /\ ck_raw ck = given ans.
Proof.
  intros [S1 S2 S3 S4 S5 S6 S7] N1 N2. destruct (Forall2_nth _ _ _ _ _ S7 N2) as ([l0 c0] & N' & k & c' & (P1 & P2 & P3) & CO).
  rewrite N1 in N'. injection N' as <- <-. destruct (loaded_idents _ _ _ _ _ _ _ S6 S5) as [L1 L2].
  destruct CO as [used ans rows SL AN T]. cbn. unfold ignores_of. rewrite P1, P2. split; [reflexivity|]. split; [reflexivity|]. split; [reflexivity|].
  split; [eapply selects_nodup; eauto|]. split; [|eauto 6]. intros id. rewrite (selects_map_in _ _ _ _ id SL). split.
  - intros (d & D1 & D2 & <-). assert (D3 : In (db_ident d) (map db_ident ds)) by now apply in_map. apply L2 in D3 as [_ D3]. split; [now apply P3|exact D3].
  - intros [(d & D1 & D2) D3]. assert (X : In id (map db_ident ds)).
    { apply L2. split; [|exact D3]. apply S4. exists l, c, d. split; [eapply nth_error_In; eauto|auto]. }
    apply in_map_iff in X as (d' & <- & D'). exists d'. split; [exact D'|]. split; [|reflexivity]. apply P3. eauto.
Qed.
Lemma own_databases E O fs cache code s' : SorterOk (e_sort E) -> IterOk (e_iter E) -> EntriesOk E -> checking O ->
  run E O (start fs cache) = (Ok code, s') -> checks (s_trace s') <> [] ->
  exists l e mode rs, inputs E O l e /\ mode_of E O fs mode /\ Forall2 (reads E O fs mode) (map as_arg l) rs
    /\ List.length (checks (s_trace s')) = List.length (usables rs)
    /\ forall i lf c ck, nth_error (usables rs) i = Some (lf, c) -> nth_error (checks (s_trace s')) i = Some ck ->
       rp_lock (ck_report ck) = lf /\ ck_cfg ck = cf_path c /\ ck_ignores ck = ignores_of O c /\ NoDup (ck_dbs ck)
       /\ (forall id, In id (ck_dbs ck) <-> (exists d, asks O (usables rs) mode lf c d /\ identifier d = id)
                                           /\ ~ In id (map identifier (failures (s_trace s'))))
       /\ exists k used ans, ck_dbs ck = map db_ident used /\ Forall2 (answers E k (lf_pkgs lf)) used ans /\ ck_raw ck = given ans.
Proof.
  intros SO IT EO CH H NE. pose proof (run_outcome E O SO IT EO _ _ _ _ CH H) as OC.
  destruct OC as [K [I _] M|e K I [D _] M|l e er K I N N1 N2 L [D _] M|l e mode rs names ds code K I N S X Mh]; try contradiction.
  exists l, e, mode, rs. split; [exact I|]. pose proof S as [S1 S2 S3 S4 S5 S6 S7]. split; [exact S1|]. split; [exact S2|].
  split; [clear - S7; induction S7; cbn; auto|]. intros i lf c ck Q1 Q2. eapply session_dbs; eauto.
Qed.
(** ** errors *)
Lemma error_exit E O fs cache code s' : SorterOk (e_sort E) -> IterOk (e_iter E) -> EntriesOk E -> o_version O = false -> o_list_eco O = false ->
  run E O (start fs cache) = (Ok code, s') -> messages KErr (s_trace s') <> [] -> code <> 0%Z.
Proof.
  intros SO IT EO V LE H M. destruct (o_list_pkgs O) eqn:L.
  - assert (LS : listing O) by (repeat split; auto). pose proof (run_list E O SO IT EO _ _ _ _ LS H) as LO. destruct LO as [| |l e rs code K I N LA SH [[-> _]|[-> C]] _]; try discriminate.
    + destruct (_ && _); discriminate.
    + contradiction.
  - assert (CH : checking O) by (repeat split; auto). intros ->. apply (exit_zero E O SO IT EO _ _ _ _ CH) in H as [H _]. specialize (H eq_refl). tauto.
Qed.
Lemma mishaps_shown E O fs cache code s' : SorterOk (e_sort E) -> IterOk (e_iter E) -> EntriesOk E -> checking O ->
  run E O (start fs cache) = (Ok code, s') -> checks (s_trace s') <> [] ->
  exists l e mode rs, inputs E O l e /\ mode_of E O fs mode /\ Forall2 (reads E O fs mode) (map as_arg l) rs
    /\ (mishap E O fs (map as_arg l) e mode rs (s_trace s') -> messages KErr (s_trace s') <> []).
Proof.
  intros SO IT EO CH H NE. pose proof (run_outcome E O SO IT EO _ _ _ _ CH H) as OC.
  destruct OC as [K [I _] M|e K I [D _] M|l e er K I N N1 N2 L [D _] M|l e mode rs names ds code K I N S X Mh]; try contradiction.
  exists l, e, mode, rs. destruct S as [S1 S2 _ _ _ _ _]. auto.
Qed.
(** ** parse-as prefixes *)
Lemma supported_no_colon n : In n supported -> has_char ":" n = false.
Proof. intros H. unfold supported in H. repeat (destruct H as [<-|H]; [reflexivity|]). destruct H. Qed.
Lemma found_round E g args l e : finds_all E g args l e -> has_char ":" g = false -> Forall (fun q => split_parse_as (as_arg q) = q) l.
Proof.
  intros F G. induction F as [|arg args a path pa l e rest er M Hpa F A IH]; [constructor|]. apply Forall_app. split; [|exact IH].
  apply Forall_forall. intros q Q. apply in_map_iff in Q as (p & <- & _). unfold as_arg. apply split_encode. cbn. rewrite Hpa.
  destruct M as [(_ & -> & _)|(N & _)]; [exact G|]. destruct (seqb a ""); [exact G|exact N].
Qed.
Lemma inputs_round E O l e : known_as (o_parse_as O) -> inputs E O l e -> Forall (fun q => split_parse_as (as_arg q) = q) l.
Proof.
  intros K I. destruct I as [|l e N F]; [repeat constructor|]. eapply found_round; [exact F|].
  destruct K as [->|[->|[->|K]]]; try reflexivity. now apply supported_no_colon.
Qed.
Lemma discovery E O : SorterOk (e_sort E) -> EntriesOk E -> forall s, o_parse_as O <> "csv-row" ->
  exists l e s', find_all_lockfiles E O s = (Ok (map as_arg l, e), s') /\ finds_all E (o_parse_as O) (o_args O) l e.
Proof. intros SO EO s N. destruct (find_all_spec E O SO EO s N) as (l & e & s' & H & F & _). eauto. Qed.
