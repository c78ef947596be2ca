From Verif Require Import GoStr GoStrFacts GoSort GoSortFacts Types Osv OsvSpec MemDB MemDBSpec MemDBProofs Path PathFacts Api ZipDB DirDB DbConfig Configer ConfigSpec ConfigProofs GoMap Lockfile LockfileSpec LockfileProofs Csv Ecosystems Report ReportSpec ReportProofs Json Main MainSpec MainTrace MainProofs DiscoverProofs Surface RunProofs RunFacts ListProofs StorySpec.
(** The trace of a run follows the grammar of StorySpec. *)
Lemma form_is n a b : form n a b = one_or n a b.
Proof. destruct n as [|[|n]]; reflexivity. Qed.

Section Story.
Variable E : Env.
Variable O : Opts.
Hypothesis SO : SorterOk (e_sort E).
Hypothesis IT : IterOk (e_iter E).
Notation says := (says O).

Definition more (s : St) (n : list ev) : St := mkSt (s_trace s ++ n) (s_errored s) (s_results s) (s_heap s) (s_dbs s) (s_files s) (s_cache s).
Lemma more_nil s : more s [] = s.
Proof. destruct s. unfold more. cbn. now rewrite app_nil_r. Qed.
Lemma more_more s a b : more (more s a) b = more s (a ++ b).
Proof. unfold more. cbn. now rewrite app_assoc. Qed.
Lemma text_is t s : print_text O t s = (Ok tt, more s [says t]). Proof. reflexivity. Qed.
Lemma emit_is e s : emit e s = (Ok tt, more s [e]). Proof. reflexivity. Qed.
Lemma emits_is {A} (f : A -> ev) l : forall s, each (fun x => emit (f x)) l s = (Ok tt, more s (map f l)).
Proof.
  induction l as [|x l IH]; intros s; cbn [each map]; [now rewrite more_nil|]. unfold bind. rewrite emit_is, IH, more_more. reflexivity.
Qed.
Lemma texts_is {A} (f : A -> string) l : forall s, each (fun x => print_text O (f x)) l s = (Ok tt, more s (map (fun x => says (f x)) l)).
Proof. intros s. apply (emits_is (fun x => says (f x))). Qed.
Lemma error_told t s u s' : print_error t s = (Ok u, s') -> s_trace s' = s_trace s ++ [complains t] /\ s_dbs s' = s_dbs s.
Proof. unfold print_error, bind, set_errored, emit. intros H. injection H as _ <-. split; reflexivity. Qed.

(** ** descriptions *)
Lemma about_is d : db_desc E d = about E d.
Proof.
  assert (N : seqb (describe_db E d) "" = false).
  { apply seqb_neq. intros Q. apply (f_equal String.length) in Q. destruct d; cbn [describe_db] in Q; rewrite ?slen_app in Q; cbn in Q; try lia.
    all: rewrite !slen_app in Q; cbn in Q; lia. }
  unfold db_desc. rewrite N. cbn [negb]. destruct d; cbn [describe_db about]; unfold size_note; rewrite ?form_is, ?sapp_assoc; reflexivity.
Qed.
Lemma check_count S sem pkgs : forall db rs db', check S sem db pkgs = Ok (rs, db') -> m_count db' = m_count db.
Proof.
  induction pkgs as [|p pkgs IH]; intros db rs db' H; cbn [check] in H; [now injection H as _ <-|].
  destruct (vulnerabilities_affecting S sem db p) as [[vs db1]|] eqn:V; [|discriminate]. cbn in H.
  destruct (check S sem db1 pkgs) as [[rest db2]|] eqn:C; [|discriminate]. cbn in H. injection H as _ <-. rewrite (IH _ _ _ C).
  unfold vulnerabilities_affecting in V. repeat match type of V with
    | context [match ?x with _ => _ end] => let Q := fresh "Q" in destruct x eqn:Q; cbn in V; try discriminate
    | rbind ?x _ = _ => let Q := fresh "Q" in destruct x eqn:Q; cbn in V; try discriminate end; injection V as _ <-; reflexivity.
Qed.
Lemma history_count S sem db db' : history S sem db db' -> m_count db' = m_count db.
Proof. induction 1 as [db|db ps r db0 db1 C H IH]; [reflexivity|]. rewrite IH. eapply check_count; eauto. Qed.
Notation Evolves := (evolves (e_sort E) (e_sem E)).
Definition alike (d d' : DB) : Prop := db_ident d' = db_ident d /\ use_note E d' = use_note E d.
Lemma evolves_alike d d' : Evolves d d' -> alike d d'.
Proof.
  destruct 1 as [n i db db' date H|n i db db' H|a]; split; try reflexivity; unfold use_note, about, size_note; cbn [db_name];
    now rewrite (history_count _ _ _ _ H).
Qed.

(** ** loading *)
Lemma load_loop_told names cs : forall s ds b s', load_loop E O cs names s = (Ok (ds, b), s') ->
  exists n, s_trace s' = s_trace s ++ n /\ loading E O n ds.
Proof.
  induction cs as [|c cs IH]; intros s ds b s' H; cbn [load_loop] in H.
  - injection H as <- _ <-. exists []. rewrite app_nil_r. split; [reflexivity|constructor].
  - step H u0 s0 H0. rewrite text_is in H0. injection H0 as _ <-. step H u1 s1 H1. rewrite emit_is in H1. injection H1 as _ <-.
    step H cache s1 H1. injection H1 as <- <-. destruct (load_db _ _ _ _ _ _) as [[r w] reqs] eqn:L.
    step H u2 s2 H2. rewrite emits_is in H2. injection H2 as _ <-. step H u3 s3 H3. unfold set_cache in H3. injection H3 as _ <-.
    step H x s4 H4. unfold lift in H4. injection H4 as -> <-. destruct x as [e|d].
    + step H u5 s5 H5. rewrite emit_is in H5. injection H5 as _ <-. step H u6 s6 H6. apply error_told in H6 as [T6 _].
      step H xx s7 H7. destruct xx as [ds1 b1]. cbn [fst snd] in H. injection H as <- _ <-. apply IH in H7 as (n & T & Ld). eexists. split; [|eapply (lo_failed E O c reqs e n ds1), Ld].
      rewrite T, T6. cbn [more s_trace]. rewrite <- !app_assoc. cbn [app]. replace (load_note E e) with (" " +s+ e_col E "red" ("failed: " +s+ (if is_offline_err e then e_col E "red" "no local version of the database was found, and --offline flag was set" else e_text E (ALoad e))) +s+ newline); [reflexivity|].
      unfold load_note. destruct e as [[]|[]| |]; reflexivity.
    + step H u5 s5 H5. rewrite text_is in H5. injection H5 as _ <-. step H xx s7 H7. destruct xx as [ds1 b1]. cbn [fst snd] in H. injection H as <- _ <-. apply IH in H7 as (n & T & Ld).
      eexists. split; [|eapply (lo_db E O c reqs d n ds1); [eapply load_ident; exact L|exact Ld]].
      rewrite T. cbn [more s_trace]. rewrite about_is. rewrite <- !app_assoc. reflexivity.
Qed.

(** ** checking one lockfile *)
Lemma check_dbs_told k lf use : forall s raw s', check_dbs E k use lf s = (Ok raw, s') ->
  exists n, s_trace s' = s_trace s ++ n /\ Forall (asking E lf) n.
Proof.
  induction use as [|i use IH]; intros s raw s' H; cbn [check_dbs] in H.
  - injection H as _ <-. exists []. rewrite app_nil_r. split; [reflexivity|constructor].
  - step H ds s0 H0. injection H0 as <- <-. destruct (nth_error (s_dbs s) i) as [d|]; [|discriminate].
    step H u1 s1 H1. assert (A1 : exists n, s_trace s1 = s_trace s ++ n /\ Forall (asking E lf) n).
    { destruct d; [..|]; try (injection H1 as _ <-; exists []; rewrite app_nil_r; split; [reflexivity|constructor]).
      rewrite emit_is in H1. injection H1 as _ <-. eexists. split; [reflexivity|]. repeat constructor. }
    destruct A1 as (n1 & T1 & F1). step H xx s2 H2. destruct xx as [r d']. unfold lift in H2. injection H2 as _ <-. step H u3 s3 H3. unfold set_dbs in H3. injection H3 as _ <-.
    destruct r as [e|rs].
    + step H u4 s4 H4. apply error_told in H4 as [T4 _]. apply IH in H as (n & T & F). eexists (n1 ++ _ :: n). split.
      * rewrite T, T4. cbn [s_trace]. rewrite T1, <- !app_assoc. reflexivity.
      * apply Forall_app. split; [exact F1|]. constructor; [apply ak_fails|exact F].
    + step H rest s4 H4. injection H as _ <-. apply IH in H4 as (n & T & F). exists (n1 ++ n). split; [|now apply Forall_app].
      rewrite T. cbn [s_trace]. now rewrite T1, <- app_assoc.
Qed.
Definition pick (ds : list DB) (use : list nat) : list DB := flat_map (fun i => match nth_error ds i with Some d => [d] | None => [] end) use.
Lemma pick_in ds use : Forall (fun d => In d ds) (pick ds use).
Proof.
  apply Forall_forall. intros d I. apply in_flat_map in I as (i & _ & I). destruct (nth_error ds i) eqn:N; [|destruct I].
  destruct I as [<-|[]]. eapply nth_error_In; eauto.
Qed.
Lemma pick_idents ds use : flat_map (fun i => match nth_error ds i with Some d => [db_ident d] | None => [] end) use = map db_ident (pick ds use).
Proof. induction use as [|i use IH]; [reflexivity|]. cbn [flat_map]. rewrite IH. unfold pick. cbn [flat_map]. rewrite map_app. f_equal. now destruct (nth_error ds i). Qed.
Lemma pick_alike ds0 ds use : Forall2 Evolves ds0 ds -> Forall2 alike (pick ds0 use) (pick ds use).
Proof.
  intros F. induction use as [|i use IH]; [constructor|]. cbn [pick flat_map]. apply Forall2_app; [|exact IH].
  clear IH. revert i. induction F as [|d d' l l' V F IH]; intros [|i]; cbn; try constructor; auto using evolves_alike.
Qed.
Lemma alike_notes l l' : Forall2 alike l l' -> map db_ident l' = map db_ident l /\ map (fun d => says (use_note E d)) l' = map (fun d => says (use_note E d)) l.
Proof. induction 1 as [|d d' l l' [A B] F [I1 I2]]; cbn [map]; [auto|]. now rewrite A, B, I1, I2. Qed.
Lemma notes_is ds use : forall s, each (fun i => match nth_error ds i with
     | Some d => print_text O ("  Using db " +s+ e_col E "hicyan" (db_name d) +s+ db_desc E d +s+ newline) | None => ret tt end) use s
  = (Ok tt, more s (map (fun d => says (use_note E d)) (pick ds use))).
Proof.
  induction use as [|i use IH]; intros s; cbn [each pick flat_map map]; [now rewrite more_nil|]. unfold bind.
  destruct (nth_error ds i) as [d|]; cbn [app map].
  - rewrite text_is, about_is. rewrite IH, more_more. reflexivity.
  - unfold ret at 1. apply IH.
Qed.

(** ** the loop over the lockfiles *)
Lemma asked_none lf n : Forall (asking E lf) n -> checks n = [].
Proof. induction 1 as [|e n A F IH]; [reflexivity|]. destruct A; exact IH. Qed.
Lemma says_none {A} (f : A -> string) l : checks (map (fun d => says (f d)) l) = [].
Proof. induction l; [reflexivity|assumption]. Qed.
Lemma shows_is r s u s' : print_result E O r s = (Ok u, s') ->
  s_trace s' = s_trace s ++ shows E O r /\ s_dbs s' = s_dbs s /\ s_heap s' = s_heap s.
Proof.
  unfold print_result, shows, add_result, emit. destruct (o_json O); intros H; injection H as _ <-; cbn; rewrite ?app_nil_r; auto.
Qed.
Definition gap (k : nat) : list ev := if Nat.leb 1 k then [says newline] else [].
Lemma check_files_told ds0 files : forall k exit seen s x s', check_files E O files k exit seen s = (Ok x, s') ->
  Forall2 Evolves ds0 (s_dbs s) ->
  exists n, s_trace s' = s_trace s ++ n /\ snd x = fold_left (fun m ck => add_check O ck m) (checks n) seen
    /\ match files with [] => n = [] | _ => exists m, accounts E O ds0 m /\ n = gap k ++ m end.
Proof.
  induction files as [|f fs IH]; intros k exit seen s x s' H F; cbn [check_files] in H.
  - injection H as <- <-. exists []. rewrite app_nil_r. auto.
  - step H u0 s0 H0. assert (s0 = more s (gap k)) as ->.
    { unfold gap. destruct (Nat.leb 1 k); [rewrite text_is in H0; now injection H0 as _ <-|injection H0 as _ <-; now rewrite more_nil]. }
    clear H0 u0.
    (* one block, then the rest *)
    assert (Go : forall b s1 exit1 seen1, account E O ds0 b -> s_trace s1 = s_trace (more s (gap k)) ++ b -> Forall2 Evolves ds0 (s_dbs s1) ->
      seen1 = fold_left (fun m ck => add_check O ck m) (checks b) seen ->
      check_files E O fs (k + 1) exit1 seen1 s1 = (Ok x, s') ->
      exists n, s_trace s' = s_trace s ++ n /\ snd x = fold_left (fun m ck => add_check O ck m) (checks n) seen /\ exists m, accounts E O ds0 m /\ n = gap k ++ m).
    { intros b s1 exit1 seen1 A T1 F1 S1 C. apply IH in C as (n & T & S & N); [|exact F1].
      assert (CG : checks (gap k) = []) by (unfold gap; now destruct (Nat.leb 1 k)).
      destruct fs as [|f2 fs].
      - subst n. exists (gap k ++ b). rewrite checks_app, CG. cbn [app]. split; [rewrite T, T1, app_nil_r; cbn [more s_trace]; now rewrite <- app_assoc|].
        split; [now rewrite S, S1|]. exists b. split; [now constructor|reflexivity].
      - destruct N as (m & AM & ->). unfold gap at 1 in T. unfold gap in S. destruct (Nat.leb_spec 1 (k + 1)); [|lia].
        exists (gap k ++ b ++ says newline :: m). split; [|split].
        + rewrite T, T1. cbn [more s_trace]. now rewrite <- !app_assoc.
        + rewrite !checks_app, CG. cbn [app]. rewrite fold_left_app, <- S1. exact S.
        + eexists. split; [|reflexivity]. now constructor. }
    destruct (l_err f) as [e|] eqn:Er.
    + step H u1 s1 H1. apply error_told in H1 as [T1 D1]. eapply Go; [|exact T1|now rewrite D1| |exact H]; [|reflexivity]. apply ac_error.
    + step H h s1 H1. injection H1 as <- <-. cbv zeta in H. set (c := if o_no_ignores O then _ else _) in H.
      step H u1 s1 H1. unfold set_heap in H1. injection H1 as _ <-. step H u2 s2 H2. rewrite text_is in H2. injection H2 as _ <-.
      destruct (o_list_pkgs O) eqn:L.
      * step H u3 s3 H3. apply shows_is in H3 as (T3 & D3 & _). eapply Go; [apply (ac_listed E O ds0 (l_lock f)); exact L| |now rewrite D3| |exact H].
        -- rewrite T3. cbn [more s_trace]. rewrite form_is, <- !app_assoc. reflexivity.
        -- unfold shows. destruct (o_json O); reflexivity.
      * step H u3 s3 H3.
        set (note := if seqb (cf_path c) "" then [] else [says (config_note E O (cf_path c) (List.length (cf_ignore c)))]).
        assert (s3 = more (mkSt (s_trace (more s (gap k))) (s_errored s) (s_results s) (upd (s_heap s) (l_cfg f) c) (s_dbs s) (s_files s) (s_cache s)) (says (heading E (l_lock f)) :: note)) as ->.
        { unfold note. destruct (seqb (cf_path c) ""); cbn [negb] in H3.
          - injection H3 as _ <-. unfold heading. now rewrite form_is.
          - rewrite text_is in H3. injection H3 as _ <-. rewrite more_more. unfold heading, config_note. rewrite !form_is. reflexivity. }
        clear H3. step H dbs s4 H4. injection H4 as <- <-. cbn [more s_dbs] in H.
        step H u5 s5 H5. rewrite notes_is in H5. injection H5 as _ <-. step H u6 s6 H6. rewrite text_is in H6. injection H6 as _ <-.
        rewrite !more_more in H. set (use := for_configs (s_dbs s) (cf_dbs c)) in H. set (ign := _ ++ o_ignores O) in H.
        step H xx s7 H7. unfold check_lockfile in H7. step H7 raw s8 H8. step H7 rows s9 H9. unfold lift in H9. injection H9 as _ <-. injection H7 as <- <-. cbn [fst snd] in H.
        pose proof (check_dbs_spec E k (l_lock f) use ds0 _ _ _ H8 F) as (_ & F8 & _). apply check_dbs_told in H8 as (asked & T8 & A8).
        step H u9 s9 H9. rewrite emit_is in H9. injection H9 as _ <-. step H u10 s10 H10. apply shows_is in H10 as (T10 & D10 & _).
        destruct (alike_notes _ _ (pick_alike _ _ use F)) as [PI PN].
        eapply Go; [apply (ac_checked E O ds0 (cf_path c) (pick ds0 use) ign raw (l_lock f) rows asked L); [apply pick_in|exact A8]| |rewrite D10; exact F8| |exact H].
        -- rewrite T10. cbn [more s_trace]. rewrite T8. cbn [more s_trace]. rewrite pick_idents, PI, PN. unfold note.
           replace (List.length ign - List.length (o_ignores O)) with (if negb (seqb (cf_path c) "") && negb (o_no_ignores O) then List.length (cf_ignore c) else 0)
             by (unfold ign; rewrite app_length; destruct (_ && _); cbn [List.length]; lia).
           destruct (seqb (cf_path c) ""); cbn [negb andb app].
           ++ cbn [app]. rewrite <- !app_assoc. cbn [app]. rewrite <- !app_assoc. reflexivity.
           ++ replace (config_note E O (cf_path c) (if negb (o_no_ignores O) then List.length (cf_ignore c) else 0)) with (config_note E O (cf_path c) (List.length (cf_ignore c)))
                by (unfold config_note; now destruct (o_no_ignores O)).
              rewrite <- !app_assoc. cbn [app]. rewrite <- !app_assoc. reflexivity.
        -- set (r := mkRep (l_lock f) rows). set (ck := mkChk (cf_path c) (map db_ident (pick ds0 use)) ign raw r).
           assert (CK : checks (says (heading E (l_lock f)) :: (if seqb (cf_path c) "" then [] else [says (config_note E O (cf_path c) (List.length ign - List.length (o_ignores O)))])
              ++ map (fun d => says (use_note E d)) (pick ds0 use) ++ says newline :: asked ++ ECheck (cf_path c) (map db_ident (pick ds0 use)) ign raw r :: shows E O (RReport r)) = [ck]).
           { change (checks (says (heading E (l_lock f)) :: ?a)) with (checks a). rewrite !checks_app, says_none.
             replace (checks (if seqb (cf_path c) "" then [] else _)) with (@nil checked) by (now destruct (seqb (cf_path c) "")). cbn [app].
             change (checks (says newline :: ?a)) with (checks a). rewrite checks_app, (asked_none _ _ A8). cbn [app]. unfold shows. destruct (o_json O); reflexivity. }
           rewrite CK. reflexivity.
Qed.

(** ** updates *)
Lemma update_all_told l : forall s lines s', update_all E l s = (Ok lines, s') ->
  exists done, Forall2 (fun en sl => updates E en (fst sl) (snd sl)) l done /\ lines = map snd done /\ s_trace s' = s_trace s ++ concat (map fst done).
Proof.
  induction l as [|[p ids] l IH]; intros s lines s' H; cbn [update_all] in H.
  - injection H as <- <-. exists []. cbn. rewrite app_nil_r. repeat split. constructor.
  - step H line s1 H1. step H rest s2 H2. injection H as <- <-. apply IH in H2 as (done & F & -> & T).
    assert (A : exists n, updates E (p, ids) n line /\ s_trace s1 = s_trace s ++ n).
    { unfold update_one in H1. step H1 fs s3 H3. injection H3 as <- <-. step H1 u s3 H3. rewrite emit_is in H3. injection H3 as _ <-.
      destruct (update_with_ignores _ _ _ _ _ _) as [e|content].
      - injection H1 as <- <-. eexists. split; [apply up_failed|reflexivity].
      - step H1 u4 s4 H4. rewrite emit_is in H4. injection H4 as _ <-. step H1 u5 s5 H5. unfold set_files in H5. injection H5 as _ <-. injection H1 as <- <-.
        rewrite form_is. eexists. split; [apply up_written with (content := content)|]. cbn [more s_trace]. now rewrite <- app_assoc. }
    destruct A as (n & U & T1). exists ((n, line) :: done). split; [now constructor|]. split; [reflexivity|]. cbn [map fst concat]. now rewrite T, T1, app_assoc.
Qed.
Lemma lines_told l : forall s u s', each (fun line => if has_prefix line "Error updating" then print_error line else print_text O line) l s = (Ok u, s') ->
  s_trace s' = s_trace s ++ map (update_line O) l.
Proof.
  induction l as [|t l IH]; intros s u s' H; cbn [each] in H; [injection H as _ <-; cbn; now rewrite app_nil_r|].
  step H u1 s1 H1. apply IH in H. rewrite H. cbn [map]. unfold update_line at 2. destruct (has_prefix t "Error updating").
  - apply error_told in H1 as [-> _]. now rewrite <- app_assoc.
  - rewrite text_is in H1. injection H1 as _ <-. cbn [more s_trace]. now rewrite <- app_assoc.
Qed.
Lemma adds_nodup l : forall s, NoDup s -> NoDup (fold_left (fun s i => set_add i s) l s).
Proof. induction l as [|i l IHl]; intros s N; [exact N|]. cbn [fold_left]. apply IHl. now apply set_add_nodup. Qed.
Lemma seen_sets cks p v : map_get p (seen_of O cks) = Some v -> NoDup v.
Proof.
  revert p v. induction cks as [|ck cks IH] using rev_ind; intros p v I; [discriminate|]. rewrite seen_snoc in I. unfold add_check in I.
  destruct (_ && _); [|now apply (IH p)]. unfold add_seen in I. rewrite map_get_set in I. destruct (seqb (ck_cfg ck) p); [|now apply (IH p)].
  injection I as <-. apply adds_nodup. destruct (map_get (ck_cfg ck) (seen_of O cks)) as [s|] eqn:M; [|constructor]. now apply (IH (ck_cfg ck)).
Qed.
Lemma write_told cks s s' : o_update O = true -> write_updated_configs E O (seen_of O cks) s = (Ok tt, s') ->
  exists n, s_trace s' = s_trace s ++ n /\ updating E O cks n.
Proof.
  intros U H. unfold write_updated_configs in H. step H u0 s0 H0. step H ulines s1 H1. apply update_all_told in H1 as (done & F & -> & T1). apply lines_told in H.
  pose proof (IT _ (seen_of O cks)) as PM. set (entries := e_iter E _ (seen_of O cks)) in *.
  assert (T0 : s_trace s0 = s_trace s ++ match entries with [] => [] | _ => [says newline] end).
  { pose proof (Permutation_length PM) as PL. destruct (seen_of O cks); cbn [List.length Nat.eqb negb] in H0.
    - injection H0 as _ <-. destruct entries; [now rewrite app_nil_r|discriminate].
    - rewrite text_is in H0. injection H0 as _ <-. destruct entries; [discriminate|reflexivity]. }
  eexists. split; [rewrite H, T1, T0, <- !app_assoc; reflexivity|].
  assert (PF : Permutation (map fst (seen_of O cks)) (map fst entries)) by now apply Permutation_map.
  econstructor; [| | |exact F|apply sorter_perm; exact SO|now apply str_sorted].
  - eapply Permutation_NoDup; [exact PF|apply seen_nodup].
  - intros p. assert (X : In p (map fst entries) <-> In p (map fst (seen_of O cks))) by (split; apply Permutation_in; [now symmetry|exact PF]). rewrite X. split.
    + intros I. apply LockfileProofs.map_get_in in I as (v & G). apply seen_get in G as (A & _ & B & _). auto.
    + intros (A & ck & B & <-). destruct (seen_has O cks ck B U A) as (v & G). apply LockfileProofs.map_get_in. eauto.
  - intros p ids I. apply (Permutation_in _ (Permutation_sym PM)) in I. apply (MemDBProofs.map_get_in _ _ _ (seen_nodup O cks)) in I. split; [eapply seen_sets; exact I|]. now apply seen_get in I as (_ & _ & _ & D).
Qed.

(** ** reading paths and configs *)
Definition early_on (a b : St) : Prop := exists n, s_trace b = s_trace a ++ n /\ Forall (early E) n.
Lemma early_refl s : early_on s s. Proof. exists []. rewrite app_nil_r. auto. Qed.
Lemma early_trans a b c : early_on a b -> early_on b c -> early_on a c.
Proof. intros (m & A & B) (n & C & D). exists (m ++ n). split; [now rewrite C, A, app_assoc|now apply Forall_app]. Qed.
Lemma early_error t : early E (complains t) -> keeps early_on (print_error t).
Proof. intros H s. exists [complains t]. split; [reflexivity|auto]. Qed.
Lemma early_emit e : early E e -> keeps early_on (emit e).
Proof. intros H s. exists [e]. split; [reflexivity|auto]. Qed.
Ltac ee := repeat match goal with
  | |- keeps _ (bind _ _) => apply (keeps_bind _ early_trans); [|intros ?]
  | |- keeps _ (ret _) => apply keeps_ret, early_refl
  | |- keeps _ (lift _) => apply keeps_lift, early_refl
  | |- keeps _ (get _) => apply keeps_get, early_refl
  | |- keeps _ (set_heap _) => intros ?; exact (early_refl _)
  | |- keeps _ (emit _) => apply early_emit; constructor
  | |- keeps _ (print_error _) => apply early_error; constructor
  | |- keeps _ (each _ _) => apply (keeps_each _ early_refl early_trans); intros ? ?
  | |- keeps _ (if ?b then _ else _) => destruct b
  | |- keeps _ (match ?b with _ => _ end) => destruct b
  | H : keeps _ ?m |- keeps _ ?m => exact H
  end.
Lemma load_cfg_early p : keeps early_on (load_cfg E p).
Proof. unfold load_cfg, report_db_errs. ee. Qed.
Lemma find_cfg_early p : keeps early_on (find_cfg E p).
Proof. unfold find_cfg. ee; apply load_cfg_early. Qed.
Lemma read_all_early paths : forall l cfg, keeps early_on (read_all E O paths l cfg).
Proof. induction paths as [|p ps IH]; intros l cfg; cbn [read_all]; unfold load_at, alloc; ee; try apply find_cfg_early; apply IH. Qed.
Lemma find_all_early : keeps early_on (find_all_lockfiles E O).
Proof.
  unfold find_all_lockfiles. ee. induction (o_args O) as [|p ps IH]; cbn [find_all_loop]; ee. unfold find_lockfiles. ee.
Qed.
Lemma adjust_early files : keeps early_on (adjust_all E O files).
Proof. unfold adjust_all, adjust_one. ee. Qed.
Lemma read_all_some p ps l cfg s x s' : read_all E O (p :: ps) l cfg s = (Ok x, s') -> x <> [].
Proof.
  cbn [read_all]. intros H.
  assert (G : forall l cfg s x s', (x <- lift (parse_lockfile E O p) ; rest <- read_all E O ps l cfg ; ret (mkLFile (fst x) cfg (snd x) :: rest)) s = (Ok x, s') -> x <> []).
  { intros l0 c0 s0 x0 s1 H0. step H0 y s2 H2. step H0 z s3 H3. now injection H0 as <- _. }
  destruct l.
  - step H y s1 H1. destruct y as [e|con]; step H z s2 H2; [now injection H as <- _|]. eapply G. exact H.
  - step H c s1 H1. destruct (negb _); [step H z s2 H2|]; eapply G; exact H.
Qed.

(** ** the run *)
Lemma run_files_told p ps local cfg s code s' : o_version O = false -> o_list_eco O = false ->
  run_files E O (p :: ps) local cfg s = (Ok code, s') ->
  exists pre n, s_trace s' = s_trace s ++ pre ++ n /\ Forall (early E) pre
    /\ (if o_list_pkgs O then accounts E O [] n
        else exists ltr ds tr utr, n = says ("Loaded the following OSV databases:" +s+ newline) :: ltr ++ says newline :: tr ++ utr
          /\ loading E O ltr ds /\ accounts E O ds tr /\ (o_update O = false -> utr = []) /\ (o_update O = true -> updating E O (checks tr) utr)).
Proof.
  intros V LE H. unfold run_files in H. step H lfs s1 H1. pose proof (read_all_some _ _ _ _ _ _ _ H1) as NE.
  apply (keeps_at _ _ _ _ _ (read_all_early _ _ _)) in H1 as (n1 & T1 & F1). step H u2 s2 H2.
  apply (keeps_at _ _ _ _ _ (adjust_early _)) in H2 as (n2 & T2 & F2). step H h s3 H3. injection H3 as <- <-. step H x s3 H3.
  step H u4 s4 H4. unfold set_dbs in H4. injection H4 as _ <-. step H y s5 H5. step H u6 s6 H6. step H er s7 H7. injection H7 as _ <-. injection H as _ <-.
  assert (F : Forall2 Evolves (fst x) (fst x)) by (clear; induction (fst x); constructor; auto using evolves_refl).
  apply (check_files_told (fst x)) in H5 as (n & T & S & N); [|exact F]. destruct lfs as [|f fs]; [congruence|]. destruct N as (m & A & ->). cbn [gap Nat.leb app] in *.
  change (gap 0) with (@nil ev) in *. cbn [app] in *.
  assert (PRE : Forall (early E) (n1 ++ n2)) by now apply Forall_app.
  assert (SN : snd y = seen_of O (checks m)) by exact S.
  unfold load_databases in H3. destruct (o_list_pkgs O) eqn:L.
  - injection H3 as <- <-. exists (n1 ++ n2), m. split; [|auto].
    assert (CM : checks m = []).
    { clear - A L. induction A as [a AC|a tr AC A IH].
      - destruct AC; try reflexivity; [unfold shows; destruct (o_json O); reflexivity|congruence].
      - rewrite checks_app. change (checks (says newline :: tr)) with (checks tr). rewrite IH, app_nil_r. destruct AC; try reflexivity; [unfold shows; destruct (o_json O); reflexivity|congruence]. }
    rewrite CM in SN. cbn in SN. assert (s6 = s5) as ->.
    { destruct (o_update O); [|now injection H6 as _ <-]. rewrite SN in H6. rewrite (write_none E O SO _ IT) in H6. now injection H6 as _ <-. }
    rewrite T. cbn [s_trace]. rewrite T2, T1, <- !app_assoc. reflexivity.
  - step H3 u7 s7 H7. rewrite text_is in H7. injection H7 as _ <-. step H3 z s8 H8. destruct z as [ds b]. apply load_loop_told in H8 as (ltr & T8 & Ld).
    step H3 u9 s9 H9. rewrite text_is in H9. injection H9 as _ <-. injection H3 as <- <-. cbn [fst] in *.
    assert (U : exists utr, s_trace s6 = s_trace s5 ++ utr /\ (o_update O = false -> utr = []) /\ (o_update O = true -> updating E O (checks m) utr)).
    { destruct (o_update O) eqn:OU.
      - rewrite SN in H6. destruct u6. apply write_told in H6 as (utr & T6 & U6); [|exact OU]. exists utr. repeat split; auto. discriminate.
      - injection H6 as _ <-. exists []. rewrite app_nil_r. repeat split; auto. discriminate. }
    destruct U as (utr & T6 & U1 & U2). exists (n1 ++ n2), (says ("Loaded the following OSV databases:" +s+ newline) :: ltr ++ says newline :: m ++ utr).
    split; [|split; [exact PRE|exists ltr, ds, m, utr; auto]].
    rewrite T6, T. cbn [s_trace more]. rewrite T8. cbn [s_trace more]. rewrite T2, T1, <- !app_assoc. cbn [app]. reflexivity.
Qed.
Lemma errors_told {A} (f : A -> string) l : forall s u s', each (fun a => print_error (f a)) l s = (Ok u, s') -> s_trace s' = s_trace s ++ map (fun a => complains (f a)) l.
Proof.
  induction l as [|t l IH]; intros s u s' H; cbn [each] in H; [injection H as _ <-; cbn; now rewrite app_nil_r|].
  step H u1 s1 H1. apply IH in H. rewrite H. apply error_told in H1 as [-> _]. cbn [map]. now rewrite <- app_assoc.
Qed.
Lemma trace_start fs cache n : s_trace (more (start fs cache) n) = n. Proof. reflexivity. Qed.
Lemma one_app {A} (a : A) l : [a] ++ l = a :: l. Proof. reflexivity. Qed.
Lemma heading_lines a (f : string -> string) l s : (print_text O a ;; each (fun e => print_text O (f e)) l) s = (Ok tt, more s (says a :: map (fun e => says (f e)) l)).
Proof. unfold bind. rewrite text_is, texts_is, more_more. reflexivity. Qed.
Lemma ecosystems_is s : print_known_ecosystems O s = (Ok tt, more s (says ("The detector supports parsing for the following ecosystems:" +s+ newline)
           :: map (fun e => says ("  " +s+ e +s+ newline)) known_ecosystems)).
Proof. unfold print_known_ecosystems. generalize known_ecosystems. intros l. apply (heading_lines _ (fun e => "  " +s+ e +s+ newline)). Qed.
Lemma run_body_told fs cache code s' : run_body E O (start fs cache) = (Ok code, s') -> story E O (s_trace s').
Proof.
  intros H. unfold run_body in H. destruct (o_version O) eqn:V; [step H u s1 H1; rewrite text_is in H1; injection H1 as _ <-; injection H as _ <-; now apply sr_version|].
  destruct (o_list_eco O) eqn:LE.
  { step H u s1 H1. injection H as _ <-. rewrite ecosystems_is in H1. injection H1 as _ <-. rewrite trace_start. apply sr_ecosystems; assumption. }
  pose proof (known_as_iff (o_parse_as O)) as KA. destruct (known_parse_as (o_parse_as O)); cbn [negb] in H.
  2:{ step H u1 s1 H1. apply error_told in H1 as [T1 _]. step H u2 s2 H2. apply errors_told in H2. rewrite (list_parsers_all _ _ SO IT) in H2.
      step H u3 s3 H3. apply error_told in H3 as [T3 _]. step H u4 s4 H4. apply error_told in H4 as [T4 _]. injection H as _ <-.
      rewrite T4, T3, H2, T1. change (s_trace (start fs cache)) with (@nil ev). rewrite app_nil_l, <- !app_assoc, one_app.
      change ([complains ("  " +s+ parse_as_csv_file +s+ newline)] ++ [complains ("  " +s+ parse_as_csv_row +s+ newline)])
        with (map (fun a => complains ("  " +s+ a +s+ newline)) ["csv-file"; "csv-row"]).
      rewrite <- map_app. apply sr_parser; auto. intros K. apply KA in K. discriminate. }
  clear KA. step H x s1 H1. apply (keeps_at _ _ _ _ _ find_all_early) in H1 as (n1 & T1 & F1). cbn [start s_trace app] in T1.
  destruct (fst x) as [|p ps]; cbn [List.length Nat.eqb] in H.
  { step H u2 s2 H2. apply error_told in H2 as [T2 _]. injection H as _ <-. rewrite T2, T1. now apply sr_nothing. }
  unfold run_config in H.
  assert (Go : forall local cfg n s2, s_trace s2 = n -> Forall (early E) n -> run_files E O (p :: ps) local cfg s2 = (Ok code, s') -> story E O (s_trace s')).
  { intros local cfg n s2 T2 F2 R. apply run_files_told in R as (pre & m & T & F & N); auto. rewrite T, T2, app_assoc.
    assert (FP : Forall (early E) (n ++ pre)) by now apply Forall_app.
    destruct (o_list_pkgs O) eqn:L; [apply sr_listed; auto; repeat split; auto|].
    destruct N as (ltr & ds & tr & utr & -> & A & B & C & D). apply (sr_checked E O (n ++ pre) ltr ds tr utr); auto. repeat split; auto. }
  assert (AL : forall c s2 i s3, alloc c s2 = (Ok i, s3) -> s_trace s3 = s_trace s2).
  { intros c s2 i s3 Q. unfold alloc in Q. step Q hh s4 Q4. injection Q4 as <- <-. step Q uu s5 Q5. injection Q5 as _ <-. now injection Q as _ <-. }
  destruct (o_list_pkgs O) eqn:L; [|destruct (negb (o_no_config O) && negb (seqb (o_config O) ""))].
  - step H cfg s2 H2. apply AL in H2. eapply Go; [|exact F1|exact H]. congruence.
  - step H c s2 H2. apply (keeps_at _ _ _ _ _ (load_cfg_early _)) in H2 as (n2 & T2 & F2). assert (FP : Forall (early E) (n1 ++ n2)) by now apply Forall_app.
    destruct c as [e|con].
    + step H u3 s3 H3. apply error_told in H3 as [T3 _]. injection H as _ <-. rewrite T3, T2, T1. apply sr_config; auto. repeat split; auto.
    + step H cfg s3 H3. apply AL in H3. eapply Go; [|exact FP|exact H]. congruence.
  - step H cfg s2 H2. apply AL in H2. eapply Go; [|exact F1|exact H]. congruence.
Qed.
Lemma run_told fs cache code s' : run E O (start fs cache) = (Ok code, s') -> whole_story E O (s_trace s').
Proof.
  unfold run. destruct (run_body E O (start fs cache)) as [r s1] eqn:B. destruct (o_json O) eqn:J.
  - cbn. intros H. injection H as -> <-. apply run_body_told in B. exists (s_trace s1). split; [exact B|]. right. cbn [s_trace]. eauto.
  - intros H. injection H as -> <-. apply run_body_told in B. exists (s_trace s1). auto.
Qed.
End Story.
