From Coq Require Import Lia Permutation.
From Verif Require Import GoStr GoStrFacts GoSort GoSortFacts Types Osv MemDB Path Api ZipDB DirDB DbConfig Configer GoMap Lockfile Csv Ecosystems Report Json Main.
From Verif Require Import OsvSpec MemDBSpec ReportSpec MainSpec MemDBProofs ReportProofs MainTrace MainProofs Surface RunFacts RunProofs RunOrderSpec RunOrderProofs.
From Verif Require Import PathFacts QuietSpec QuietProofs ReignoreSpec.

Section Twin.
Variables (w : World) (se : Semantic) (so : Sorter) (it : Iter) (co : string -> string -> string) (te : any_err -> string) (oj : OSV -> json)
  (st : string -> path_kind) (im : ParserFn -> Parser) (cs : string -> option string) (cp : string -> string) (de : string -> option raw_config)
  (en : raw_config -> string) (op : string -> bool) (ap : nat -> APIDB -> list Pkg -> res (api_err + list (list OSV))) (ve : string).
Notation E := (mkEnv w se so it co te oj st im cs cp de en op ap ve).
Variable O : Opts.
Variable I : list string -> list string -> Prop.
Hypothesis HS : SorterOk so.
Hypothesis HI : IterOk it.
Variables fs fs' : string -> fread.
Hypothesis RE : reignored de I fs fs'.
Notation like := (twin_ev O I).

Definition tcfg (c c' : Config) : Prop :=
  cf_path c = cf_path c' /\ cf_dbs c = cf_dbs c' /\ (cf_ignore c = cf_ignore c' \/ I (cf_ignore c) (cf_ignore c')).
Record tst (s s' : St) : Prop := mkTst {
  t_trace : Forall2 like (s_trace s) (s_trace s');
  t_errored : s_errored s = s_errored s';
  t_heap : Forall2 tcfg (s_heap s) (s_heap s');
  t_dbs : s_dbs s = s_dbs s';
  t_files : s_files s = fs;
  t_files' : s_files s' = fs';
  t_cache : forall p, s_cache s p = s_cache s' p;
  t_ok : heap_ok s;
  t_ok' : heap_ok s' }.
Definition tpar {A} (RA : A -> A -> Prop) (m m' : M A) : Prop := forall s s', tst s s' ->
  match m s, m' s' with
  | (Ok a, s1), (Ok a', s1') => RA a a' /\ tst s1 s1'
  | (Panic, s1), (Panic, s1') => tst s1 s1'
  | _, _ => False
  end.
Lemma tpar_bind {A B} (RA : A -> A -> Prop) (RB : B -> B -> Prop) m m' f f' :
  tpar RA m m' -> (forall a a', RA a a' -> tpar RB (f a) (f' a')) -> tpar RB (bind m f) (bind m' f').
Proof.
  intros H K s s' L. specialize (H s s' L). unfold bind. destruct (m s) as [[a|] s1], (m' s') as [[a'|] s1']; try contradiction; auto.
  destruct H as [H1 H2]. exact (K a a' H1 s1 s1' H2).
Qed.
Lemma tpar_ret {A} (RA : A -> A -> Prop) a a' : RA a a' -> tpar RA (ret a) (ret a').
Proof. intros H s s' L. cbn. auto. Qed.
Lemma tpar_lift {A} (r : res A) : tpar eq (lift r) (lift r).
Proof. intros s s' L. cbn. destruct r; auto. Qed.
Lemma tpar_emit e e' : like e e' -> tpar eq (emit e) (emit e').
Proof. intros H s s' []. cbn. split; [reflexivity|]. split; auto. cbn. apply Forall2_app; auto. Qed.
Lemma tpar_emit1 e : checks [e] = [] -> tpar eq (emit e) (emit e).
Proof. intros H. apply tpar_emit. now constructor. Qed.
Lemma tpar_error t : tpar eq (print_error t) (print_error t).
Proof.
  unfold print_error. apply (tpar_bind eq).
  - intros s s' []. cbn. split; [reflexivity|]. split; auto.
  - intros. now apply tpar_emit1.
Qed.
Lemma tpar_text t : tpar eq (print_text O t) (print_text O t).
Proof. unfold print_text. now apply tpar_emit1. Qed.
Lemma tpar_result r r' : tpar eq (print_result E O r) (print_result E O r').
Proof.
  unfold print_result. destruct (o_json O) eqn:J.
  - intros s s' []. cbn. split; [reflexivity|]. split; auto.
  - apply tpar_emit. now apply tw_result.
Qed.
Lemma tpar_heap : tpar (fun h h' => Forall2 tcfg h h' /\ Forall plain_path h /\ Forall plain_path h') (get s_heap) (get s_heap).
Proof. intros s s' L. cbn. split; [|exact L]. destruct L. auto. Qed.
Lemma tpar_dbs : tpar eq (get s_dbs) (get s_dbs).
Proof. intros s s' L. cbn. split; [apply L|exact L]. Qed.
Lemma tpar_errored : tpar eq (get s_errored) (get s_errored).
Proof. intros s s' L. cbn. split; [apply L|exact L]. Qed.
Lemma tpar_files : tpar (fun f f' => f = fs /\ f' = fs') (get s_files) (get s_files).
Proof. intros s s' L. cbn. split; [|exact L]. destruct L. auto. Qed.
Lemma tpar_cache : tpar (fun c c' => forall p, c p = c' p) (get s_cache) (get s_cache).
Proof. intros s s' L. cbn. split; [|exact L]. destruct L. auto. Qed.
Lemma tpar_set_cache c c' : (forall p, c p = c' p) -> tpar eq (set_cache c) (set_cache c').
Proof. intros H s s' []. cbn. split; [reflexivity|]. split; auto. Qed.
Lemma tpar_set_dbs d : tpar eq (set_dbs d) (set_dbs d).
Proof. intros s s' []. cbn. split; [reflexivity|]. split; auto. Qed.
Lemma tpar_set_heap h h' : Forall2 tcfg h h' -> Forall plain_path h -> Forall plain_path h' -> tpar eq (set_heap h) (set_heap h').
Proof. intros H H1 H2 s s' []. cbn. split; [reflexivity|]. split; auto. Qed.
Lemma tpar_each {A} (f f' : A -> M unit) l : (forall a, tpar eq (f a) (f' a)) -> tpar eq (each f l) (each f' l).
Proof. intros H. induction l as [|a l IH]; cbn [each]; [now apply tpar_ret|]. apply (tpar_bind eq); auto. Qed.

(** ** configs *)
Lemma tcfg_refl c : tcfg c c.
Proof. repeat split; auto. Qed.
Lemma tupd h h' i c c' : Forall2 tcfg h h' -> tcfg c c' -> Forall2 tcfg (upd h i c) (upd h' i c').
Proof. intros F C. revert i. induction F as [|a b h h' Ha F IH]; intros [|i]; cbn; constructor; auto. Qed.
Lemma tnth h h' i : Forall2 tcfg h h' -> tcfg (nth i h empty_config) (nth i h' empty_config).
Proof. intros F. revert i. induction F as [|a b h h' Ha F IH]; intros [|i]; cbn; auto using tcfg_refl. Qed.
Lemma pupd h i c : Forall plain_path h -> plain_path c -> Forall plain_path (upd h i c).
Proof. intros F C. revert i. induction F as [|a h Ha F IH]; intros [|i]; cbn; constructor; auto. Qed.
Lemma pnth h i : Forall plain_path h -> plain_path (nth i h empty_config).
Proof. intros F. revert i. induction F as [|a h Ha F IH]; intros [|i]; cbn; auto; now right. Qed.
Definition tres (x x' : cfg_err + Config) : Prop :=
  match x, x' with inl e, inl e' => e = e' | inr c, inr c' => tcfg c c' /\ plain_path c /\ plain_path c' | _, _ => False end.
Lemma tpar_load_cfg path : tpar tres (load_cfg E path) (load_cfg E path).
Proof.
  unfold load_cfg. apply (tpar_bind eq); [now apply tpar_emit1|]. intros _ _ _. eapply tpar_bind; [apply tpar_files|]. intros f f' [-> ->].
  unfold load_config, load_raw. cbv zeta. cbn [e_dec_yaml e_world].
  assert (PP : forall i d, plain_path (mkCfg (clean path) i d)) by (intros; left; cbn; apply clean_idem).
  destruct (RE (clean path)) as [<-|(a & b & x & y & dbs & -> & -> & -> & -> & R)].
  - destruct (fs (clean path)) as [c| |]; [|now apply tpar_ret|now apply tpar_ret]. destruct (de c) as [raw|]; [|now apply tpar_ret].
    destruct (to_configs _ _) as [ds errs]. apply (tpar_bind eq); [apply tpar_each; intros; apply tpar_error|]. intros _ _ _. apply tpar_ret.
    split; [apply tcfg_refl|]. auto.
  - cbn [rc_dbs rc_ignore]. destruct (to_configs _ _) as [ds errs]. cbn [cf_path]. apply (tpar_bind eq); [apply tpar_each; intros; apply tpar_error|].
    intros _ _ _. apply tpar_ret. split; [|auto]. repeat split; auto.
Qed.
Lemma tpar_find_cfg dir : tpar tres (find_cfg E dir) (find_cfg E dir).
Proof.
  unfold find_cfg. eapply tpar_bind; [apply tpar_load_cfg|]. intros [e|c] [e'|c'] H; cbn [tres] in H; try contradiction.
  2: now apply tpar_ret. subst e'. destruct e; [|now apply tpar_ret|now apply tpar_ret].
  eapply tpar_bind; [apply tpar_load_cfg|]. intros [e|c] [e'|c'] H; cbn [tres] in H; try contradiction; [|now apply tpar_ret].
  subst e'. destruct e; apply tpar_ret; cbn; auto. split; [apply tcfg_refl|]. split; now right.
Qed.
Lemma tpar_alloc c c' : tcfg c c' -> plain_path c -> plain_path c' -> tpar eq (alloc c) (alloc c').
Proof.
  intros T P P'. unfold alloc. eapply tpar_bind; [apply tpar_heap|]. intros h h' (H & H1 & H2).
  apply (tpar_bind eq); [apply tpar_set_heap; [apply Forall2_app; auto|apply Forall_app; auto|apply Forall_app; auto]|].
  intros _ _ _. apply tpar_ret. clear - H. induction H; cbn; auto.
Qed.
Lemma tpar_read paths cl : forall cfg, tpar eq (read_all E O paths cl cfg) (read_all E O paths cl cfg).
Proof.
  induction paths as [|p ps IH]; intros cfg; cbn [read_all]; [now apply tpar_ret|].
  set (finish := fun config => bind (lift (parse_lockfile E O p)) _).
  assert (FI : forall c, tpar eq (finish c) (finish c)).
  { intros c. unfold finish. apply (tpar_bind eq); [apply tpar_lift|]. intros x ? <-. apply (tpar_bind eq); [apply IH|]. intros r ? <-. now apply tpar_ret. }
  destruct cl.
  - eapply tpar_bind; [apply tpar_find_cfg|]. intros [e|c] [e'|c'] H; cbn [tres] in H; try contradiction.
    + subst e'. apply (tpar_bind eq); [apply IH|]. intros r ? <-. now apply tpar_ret.
    + destruct H as (H1 & H2 & H3). apply (tpar_bind eq); [now apply tpar_alloc|]. intros i ? <-. apply FI.
  - unfold load_at. apply (tpar_bind (fun c c' => tcfg c c' /\ plain_path c /\ plain_path c')).
    + eapply tpar_bind; [apply tpar_heap|]. intros h h' (H & H1 & H2). apply tpar_ret. split; [now apply tnth|]. split; now apply pnth.
    + intros c c' (H & H1 & H2). destruct H as (Q & H). rewrite <- Q. destruct (negb _); [|apply FI].
      apply (tpar_bind eq); [apply tpar_alloc; auto; split; auto|]. intros i ? <-. apply FI.
Qed.
Lemma tpar_adjust files : tpar eq (adjust_all E O files) (adjust_all E O files).
Proof.
  unfold adjust_all. apply tpar_each. intros f. unfold adjust_one. destruct (l_err f); [now apply tpar_ret|].
  eapply tpar_bind; [apply tpar_heap|]. intros h h' (H & H1 & H2). pose proof (tnth h h' (l_cfg f) H) as (Q1 & Q2 & Q3). rewrite <- Q2.
  apply tpar_set_heap.
  - apply tupd; [exact H|]. rewrite <- Q1. repeat split; auto.
  - apply pupd; [exact H1|]. exact (pnth h (l_cfg f) H1).
  - apply pupd; [exact H2|]. exact (pnth h' (l_cfg f) H2).
Qed.
Lemma tpar_load_loop names cfgs : tpar eq (load_loop E O cfgs names) (load_loop E O cfgs names).
Proof.
  induction cfgs as [|c cfgs IH]; cbn [load_loop]; [now apply tpar_ret|].
  apply (tpar_bind eq); [apply tpar_text|]. intros _ _ _. apply (tpar_bind eq); [now apply tpar_emit1|]. intros _ _ _.
  eapply tpar_bind; [apply tpar_cache|]. intros ca ca' H. rewrite <- H.
  destruct (load_db _ _ _ _ _ _) as [[r wr] reqs].
  apply (tpar_bind eq); [apply tpar_each; intros; now apply tpar_emit1|]. intros _ _ _.
  apply (tpar_bind eq); [apply tpar_set_cache; destruct wr; [|exact H]; intros q; unfold file_set; now destruct (seqb _ _)|]. intros _ _ _.
  apply (tpar_bind eq); [apply tpar_lift|]. intros x ? <-. destruct x as [e|db].
  - apply (tpar_bind eq); [now apply tpar_emit1|]. intros _ _ _. apply (tpar_bind eq); [apply tpar_error|]. intros _ _ _.
    apply (tpar_bind eq); [apply IH|]. intros y ? <-. now apply tpar_ret.
  - apply (tpar_bind eq); [apply tpar_text|]. intros _ _ _. apply (tpar_bind eq); [apply IH|]. intros y ? <-. now apply tpar_ret.
Qed.
Lemma tpar_load_databases cfgs names : tpar eq (load_databases E O cfgs names) (load_databases E O cfgs names).
Proof.
  unfold load_databases. destruct (o_list_pkgs O); [now apply tpar_ret|]. apply (tpar_bind eq); [apply tpar_text|]. intros _ _ _.
  apply (tpar_bind eq); [apply tpar_load_loop|]. intros r ? <-. apply (tpar_bind eq); [apply tpar_text|]. intros _ _ _. now apply tpar_ret.
Qed.

(** ** checks *)
Lemma tpar_check_dbs k lf dbs : tpar eq (check_dbs E k dbs lf) (check_dbs E k dbs lf).
Proof.
  induction dbs as [|i dbs IH]; cbn [check_dbs]; [now apply tpar_ret|].
  apply (tpar_bind eq); [apply tpar_dbs|]. intros ds ? <-. destruct (nth_error ds i) as [d|]; [|apply tpar_lift].
  apply (tpar_bind eq); [destruct d; try (now apply tpar_ret); now apply tpar_emit1|]. intros _ _ _.
  apply (tpar_bind eq); [apply tpar_lift|]. intros [r d'] ? <-. apply (tpar_bind eq); [apply tpar_set_dbs|]. intros _ _ _.
  destruct r as [e|rs].
  - apply (tpar_bind eq); [apply tpar_error|]. intros; apply IH.
  - apply (tpar_bind eq); [apply IH|]. intros rest ? <-. now apply tpar_ret.
Qed.
Lemma tpar_check k use lf i1 i2 :
  tpar (fun x x' => fst x = fst x' /\ rp_lock (snd x) = rp_lock (snd x') /\ Forall2 (same_row i1 i2) (rp_pkgs (snd x)) (rp_pkgs (snd x')))
      (check_lockfile E k use lf i1) (check_lockfile E k use lf i2).
Proof.
  unfold check_lockfile. apply (tpar_bind eq); [apply tpar_check_dbs|]. intros raw ? <-.
  apply (tpar_bind (Forall2 (same_row i1 i2))).
  - intros s s' L. unfold lift. pose proof (transpose_like i1 i2 raw (lf_pkgs lf) 0) as T.
    destruct (transpose_all _ i1 _ _), (transpose_all _ i2 _ _); try contradiction; auto.
  - intros a b F. apply tpar_ret. cbn. auto.
Qed.
Definition texit (e e' : Z) : Prop := (forall a b, I a b -> incl a b) -> e = e' \/ e = 1%Z /\ e' = 0%Z.
Lemma tpar_check_files files : forall k e e' seen seen', texit e e' -> Forall2 entry_like seen seen' ->
  tpar (fun x x' => texit (fst x) (fst x') /\ Forall2 entry_like (snd x) (snd x')) (check_files E O files k e seen) (check_files E O files k e' seen').
Proof.
  induction files as [|f files IH]; intros k e e' seen seen' HX HSe; cbn [check_files]; [now apply tpar_ret|].
  apply (tpar_bind eq); [destruct (Nat.leb 1 k); [apply tpar_text|now apply tpar_ret]|]. intros _ _ _.
  destruct (l_err f) as [er|].
  - apply (tpar_bind eq); [apply tpar_error|]. intros _ _ _. apply IH; [|exact HSe]. intros _. now left.
  - eapply tpar_bind; [apply tpar_heap|]. intros h h' (Hh & H1 & H2).
    assert (C0 := tnth h h' (l_cfg f) Hh). assert (P0 := pnth h (l_cfg f) H1). assert (P0' := pnth h' (l_cfg f) H2).
    set (c0 := nth (l_cfg f) h empty_config) in *. set (c0' := nth (l_cfg f) h' empty_config) in *.
    set (c := if o_no_ignores O then mkCfg (cf_path c0) [] (cf_dbs c0) else c0).
    set (c' := if o_no_ignores O then mkCfg (cf_path c0') [] (cf_dbs c0') else c0').
    assert (C : tcfg c c').
    { unfold c, c'. destruct C0 as (A1 & A2 & A3). destruct (o_no_ignores O); repeat split; auto. }
    assert (PC : plain_path c) by (unfold c; destruct (o_no_ignores O); [exact P0|exact P0]).
    assert (PC' : plain_path c') by (unfold c'; destruct (o_no_ignores O); [exact P0'|exact P0']).
    apply (tpar_bind eq); [apply tpar_set_heap; [now apply tupd|now apply pupd|now apply pupd]|]. intros _ _ _.
    apply (tpar_bind eq); [apply tpar_text|]. intros _ _ _.
    destruct (o_list_pkgs O).
    + apply (tpar_bind eq); [apply tpar_result|]. intros _ _ _. now apply IH.
    + destruct C as (Q1 & Q2 & Q3). rewrite <- Q1, <- Q2.
      apply (tpar_bind eq).
      { destruct (negb (seqb (cf_path c) "")); [|now apply tpar_ret]. unfold print_text. apply tpar_emit.
        destruct (o_no_ignores O) eqn:N; [now apply tw_same|]. now apply tw_config. }
      intros _ _ _. apply (tpar_bind eq); [apply tpar_dbs|]. intros dbs ? <-.
      apply (tpar_bind eq); [apply tpar_each; intros i; destruct (nth_error dbs i); [apply tpar_text|now apply tpar_ret]|]. intros _ _ _.
      apply (tpar_bind eq); [apply tpar_text|]. intros _ _ _.
      eapply tpar_bind; [apply tpar_check|]. intros [raw r] [raw' r'] (X1 & X2 & X3). cbn [fst snd] in *. subst raw'.
      apply (tpar_bind eq).
      { apply tpar_emit, tw_check. split; [reflexivity|]. split; [reflexivity|]. split; [reflexivity|].
        split; [|split; [exact X2|exact X3]]. cbn [ck_ignores ck_cfg]. eexists _, _. split; [reflexivity|]. split; [reflexivity|]. split.
        - destruct (negb _ && negb _); [exact Q3|now left].
        - intros [N|N]; rewrite N; [rewrite andb_false_r|]; cbn; auto. }
      intros _ _ _. apply (tpar_bind eq); [apply tpar_result|]. intros _ _ _. apply IH.
      2:{ destruct (o_update O && _); [|exact HSe]. apply seen_add; [|exact HSe]. intros i. eapply report_ids; exact X3. }
      intros Qq. destruct (HX Qq) as [->|[-> ->]].
      * destruct (has_known r) eqn:K1, (has_known r') eqn:K2; cbn [andb]; auto.
        -- destruct (Z.eqb e' 0) eqn:Z0; [|auto]. right. split; [reflexivity|]. now apply Z.eqb_eq.
        -- enough (has_known r' = false) by congruence. refine (known_mono _ _ _ _ _ X3 K1).
           apply incl_app; [|apply incl_appr, incl_refl]. apply incl_appl.
           destruct (negb _ && negb _); [|apply incl_nil_l]. destruct Q3 as [->|Q3]; [apply incl_refl|now apply Qq].
      * cbn [Z.eqb]. rewrite andb_false_r, andb_true_r. destruct (has_known r'); auto.
Qed.

(** ** states that are alike but for the order of rewriting config files *)
Definition tnear (s s' : St) : Prop := twin_run O I fs fs' s s' /\ s_errored s = s_errored s'.
Lemma twin_checks tr tr' : Forall2 like tr tr' -> Forall2 (twin_check O I) (checks tr) (checks tr').
Proof.
  induction 1 as [|a b tr tr' H F IH]; [constructor|]. change (a :: tr) with ([a] ++ tr). change (b :: tr') with ([b] ++ tr'). rewrite !checks_app.
  apply Forall2_app; [|exact IH]. destruct H as [e H|? ? ? ? ? ? ? H|?|?|?]; [rewrite H; constructor|constructor; [exact H|constructor]|constructor|constructor|constructor].
Qed.
Lemma twin_outs tr tr' : Forall2 like tr tr' -> Forall2 like (filter is_out tr) (filter is_out tr').
Proof.
  induction 1 as [|a b tr tr' H F IH]; [constructor|]. cbn [filter].
  assert (Q : is_out a = is_out b) by (destruct H; reflexivity). rewrite <- Q. destruct (is_out a); [constructor; auto|exact IH].
Qed.
Lemma tst_near s s' : tst s s' -> tnear s s'.
Proof.
  intros [L1 L2 L3 L4 L5 L6 L7 _ _]. split; [|exact L2]. split; [now apply twin_checks|now apply twin_outs| |intros p; rewrite L5, L6; now right|exact L7].
  exists (s_trace s'). auto.
Qed.
Lemma tnear_emit e e' s s' : like e e' -> tnear s s' -> tnear (snd (emit e s)) (snd (emit e' s')).
Proof.
  intros L [[A B (tr & C1 & C2 & C3) D F] G]. assert (L1 : Forall2 like [e] [e']) by (constructor; auto). split; [|exact G]. split; cbn [emit snd s_trace s_files s_cache].
  - rewrite !checks_app. apply Forall2_app; [exact A|now apply twin_checks].
  - rewrite !filter_app. apply Forall2_app; [exact B|now apply twin_outs].
  - exists (tr ++ [e']). split; [now apply Forall2_app|]. split; [now apply Permutation_app_tail|]. intros U. now rewrite C3.
  - exact D.
  - exact F.
Qed.
Lemma bind_fst {A B} (m : M A) (f : A -> M B) s a : fst (m s) = Ok a -> bind m f s = f a (snd (m s)).
Proof. intros H. unfold bind. destruct (m s) as [r t]. cbn in H. now subst r. Qed.
Definition tparn (m m' : M unit) : Prop := forall s s', tnear s s' -> fst (m s) = Ok tt /\ fst (m' s') = Ok tt /\ tnear (snd (m s)) (snd (m' s')).
Lemma tparn_bind m m' f f' : tparn m m' -> tparn (f tt) (f' tt) -> tparn (bind m f) (bind m' f').
Proof.
  intros H K s s' N. destruct (H s s' N) as (Q1 & Q2 & Q3). unfold bind. destruct (m s) as [r t], (m' s') as [r' t']. cbn [fst snd] in *. subst r r'. now apply K.
Qed.
Lemma tparn_text t : tparn (print_text O t) (print_text O t).
Proof. intros s s' N. split; [reflexivity|]. split; [reflexivity|]. apply (tnear_emit _ _ s s'); [now apply tw_same|exact N]. Qed.
Lemma tparn_error t : tparn (print_error t) (print_error t).
Proof.
  unfold print_error. apply tparn_bind.
  - intros s s' [[A B C D F] G]. split; [reflexivity|]. split; [reflexivity|]. split; [|reflexivity]. split; assumption.
  - intros s s' N. split; [reflexivity|]. split; [reflexivity|]. apply tnear_emit; [now apply tw_same|exact N].
Qed.
Lemma tparn_each (f f' : string -> M unit) l : (forall a, tparn (f a) (f' a)) -> tparn (each f l) (each f' l).
Proof. intros H. induction l as [|a l IH]; [intros s s' N; auto|]. cbn [each]. now apply tparn_bind. Qed.

(** ** rewriting config files *)
Notation nws := (news so de en op it).
Notation lns := (line_of so co te de en op it).
Notation evs := (evs_of so de en op it).
Notation pts := (put so de en op it).
Lemma entry_same x y : entry_like x y -> fst x = fst y /\ Permutation (snd x) (snd y).
Proof. intros (H1 & H2 & H3 & H4). split; [exact H1|]. now apply NoDup_Permutation. Qed.
Lemma news_twin x y : entry_like x y -> nws fs x = nws fs' y.
Proof.
  intros L. apply entry_same in L as [L1 L2]. unfold news. rewrite L1.
  replace (so _ str_ltb (it _ (snd y))) with (so _ str_ltb (it _ (snd x))).
  2:{ apply (sorts so HS). transitivity (snd x); [symmetry; apply HI|]. transitivity (snd y); [exact L2|apply HI]. }
  generalize (so _ str_ltb (it _ (snd x))). intros ids. unfold update_with_ignores, load_raw. cbv zeta.
  destruct (RE (clean (fst y))) as [<-|(a & b & u & v & dbs & -> & -> & -> & -> & R)]; reflexivity.
Qed.
Lemma lines_twin x y : entry_like x y -> lns fs x = lns fs' y.
Proof.
  intros L. unfold line_of. rewrite (news_twin x y L). apply entry_same in L as [L1 L2]. now rewrite L1, (Permutation_length L2).
Qed.
Lemma evs_twin x y : entry_like x y -> evs fs x = evs fs' y.
Proof. intros L. unfold evs_of. rewrite (news_twin x y L). now destruct L as [-> _]. Qed.
Lemma put_twin x y p : entry_like x y -> pts fs fs x p = pts fs' fs' y p \/ pts fs fs x p = fs p /\ pts fs' fs' y p = fs' p.
Proof.
  intros L. unfold put. rewrite (news_twin x y L). destruct L as [-> _]. destruct (nws fs' y); [now right|]. destruct (seqb p _); [now left|now right].
Qed.
Lemma map_twin {B} (F F' : string * list string -> B) seen seen' : (forall x y, entry_like x y -> F x = F' y) -> Forall2 entry_like seen seen' ->
  Permutation (map F (it _ seen)) (map F' (it _ seen')).
Proof.
  intros H FL. transitivity (map F seen); [symmetry; apply Permutation_map, HI|]. replace (map F seen) with (map F' seen'); [apply Permutation_map, HI|].
  symmetry. induction FL; cbn; [reflexivity|]. f_equal; auto.
Qed.
Lemma find_twin p seen seen' : Forall2 entry_like seen seen' ->
  match find (fun x => seqb p (clean (fst x))) seen, find (fun x => seqb p (clean (fst x))) seen' with
  | Some x, Some y => entry_like x y | None, None => True | _, _ => False end.
Proof.
  induction 1 as [|x y l l' H F IH]; cbn [find]; [exact Logic.I|]. pose proof H as (Q & _). rewrite <- Q. destruct (seqb p _); [exact H|exact IH].
Qed.
Lemma write_twin seen seen' : Forall2 entry_like seen seen' -> tidy seen -> tidy seen' ->
  forall s s', tst s s' -> o_update O = true ->
  fst (write_updated_configs E O seen s) = Ok tt /\ fst (write_updated_configs E O seen' s') = Ok tt
  /\ tnear (snd (write_updated_configs E O seen s)) (snd (write_updated_configs E O seen' s')).
Proof.
  intros FL T T' s s' L U. unfold write_updated_configs.
  assert (LEN : List.length seen = List.length seen') by (clear - FL; induction FL; cbn; auto). rewrite <- LEN.
  set (m1 := if negb _ then print_text O newline else ret tt).
  assert (PM : tpar eq m1 m1) by (unfold m1; destruct (negb _); [apply tpar_text|now apply tpar_ret]).
  specialize (PM s s' L).
  assert (F1 : forall s, fst (m1 s) = Ok tt) by (intros s0; unfold m1; now destruct (negb _)).
  rewrite (bind_fst m1 _ _ _ (F1 s)), (bind_fst m1 _ _ _ (F1 s')). pose proof (F1 s) as G1. pose proof (F1 s') as G2.
  destruct (m1 s) as [r1 s1], (m1 s') as [r2 s1']. cbn [fst snd] in G1, G2 |- *. subst r1 r2. destruct PM as [_ L1]. clear F1 m1 s s' L. rename s1 into s, s1' into s', L1 into L.
  cbn [e_iter e_sort].
  set (k := fun x : string * list string => clean (fst x)).
  assert (T1 : NoDup (map k (it _ seen))) by (eapply Permutation_NoDup; [apply Permutation_map, HI|exact T]).
  assert (T2 : NoDup (map k (it _ seen'))) by (eapply Permutation_NoDup; [apply Permutation_map, HI|exact T']).
  destruct L as [L1 L2 L3 L4 L5 L5' L6 _ _].
  unfold bind at 1 2 3 4. rewrite (update_all_is w se so co te oj st im cs cp de en op ap ve it fs (it _ seen) s T1) by (intros; now rewrite L5).
  rewrite (update_all_is w se so co te oj st im cs cp de en op ap ve it fs' (it _ seen') s' T2) by (intros; now rewrite L5').
  rewrite (sorts so HS _ _ (map_twin (lns fs) (lns fs') seen seen' lines_twin FL)).
  apply tparn_each; [intros line; destruct (has_prefix line _); [apply tparn_error|apply tparn_text]|].
  assert (PE : Permutation (flat_map (evs fs) (it _ seen)) (flat_map (evs fs') (it _ seen'))).
  { rewrite !flat_map_concat_map. pose proof (map_twin (evs fs) (evs fs') seen seen' evs_twin FL) as P. clear - P.
    induction P; cbn; auto; [now apply Permutation_app_head|rewrite !app_assoc; apply Permutation_app_tail, Permutation_app_comm|etransitivity; eauto]. }
  assert (OE : forall f l, filter is_out (flat_map (evs f) l) = []).
  { intros f. induction l as [|x l IH]; [reflexivity|]. cbn [flat_map]. rewrite filter_app, IH, app_nil_r. unfold evs_of. destruct (nws _ x); reflexivity. }
  split; [|exact L2]. split; cbn [s_trace s_files s_cache].
  - rewrite !checks_app, !(proj2 (evs_silent so de en op it _ _)), !app_nil_r. now apply twin_checks.
  - rewrite !filter_app, !OE, !app_nil_r. now apply twin_outs.
  - exists (s_trace s' ++ flat_map (evs fs) (it _ seen)). split; [|split; [now apply Permutation_app_head|congruence]].
    apply Forall2_app; [exact L1|]. clear. induction (it _ seen) as [|x l IH]; [constructor|]. cbn [flat_map]. apply Forall2_app; [|exact IH].
    unfold evs_of. destruct (nws _ x); repeat constructor.
  - intros p. rewrite !puts_at by assumption. change (fun x : string * list string => seqb p (clean (fst x))) with (fun x => seqb p (k x)).
    rewrite (find_perm k p _ _ (Permutation_sym (HI _ seen))), (find_perm k p _ _ (Permutation_sym (HI _ seen'))) by (try exact T1; try exact T2).
    pose proof (find_twin p seen seen' FL) as X. change (fun x : string * list string => seqb p (clean (fst x))) with (fun x => seqb p (k x)) in X.
    rewrite L5, L5'. destruct (find _ seen), (find _ seen'); try contradiction; [now apply put_twin|now right].
  - exact L6.
Qed.

(** ** whole runs *)
Definition tcode (er : bool) (c c' : Z) : Prop :=
  (forall a b, I a b -> incl a b) -> c = c' \/ c = 1%Z /\ (er = false /\ c' = 0%Z \/ er = true /\ c' = 127%Z).
Definition tfin (x x' : res Z * St) : Prop :=
  tnear (snd x) (snd x') /\
  match fst x, fst x' with Ok c, Ok c' => tcode (s_errored (snd x)) c c' | Panic, Panic => True | _, _ => False end.
Lemma tfin_bind {A} (RA : A -> A -> Prop) (m m' : M A) (f f' : A -> M Z) s s' : tpar RA m m' -> tst s s' ->
  (forall a a' s1 s1', RA a a' -> tst s1 s1' -> tfin (f a s1) (f' a' s1')) -> tfin (bind m f s) (bind m' f' s').
Proof.
  intros P T H. specialize (P s s' T). unfold bind. destruct (m s) as [[a|] s1], (m' s') as [[a'|] s1']; try contradiction.
  - destruct P as [P1 P2]. now apply H.
  - split; [now apply tst_near|exact Logic.I].
Qed.
Lemma tfin_same (m m' : M Z) s s' : tpar eq m m' -> tst s s' -> tfin (m s) (m' s').
Proof.
  intros P T. specialize (P s s' T). destruct (m s) as [[a|] s1], (m' s') as [[a'|] s1']; try contradiction; split.
  - now apply tst_near.
  - destruct P as [-> _]. intros _. now left.
  - now apply tst_near.
  - exact Logic.I.
Qed.
Lemma tfin_files paths cl cfg s s' : tst s s' -> tfin (run_files E O paths cl cfg s) (run_files E O paths cl cfg s').
Proof.
  intros T. unfold run_files. eapply tfin_bind; [apply tpar_read|exact T|]. intros files ? s1 s1' <- T1.
  eapply tfin_bind; [apply tpar_adjust|exact T1|]. intros _ _ s2 s2' _ T2.
  eapply tfin_bind; [apply tpar_heap|exact T2|]. intros h h' s3 s3' (Hh & _) T3.
  replace (map cf_dbs (get_configs h' files)) with (map cf_dbs (get_configs h files)).
  2:{ unfold get_configs. clear - Hh. induction files as [|f l IH]; [reflexivity|]. cbn [flat_map]. rewrite !map_app, IH. f_equal. destruct (l_err f); [reflexivity|].
      cbn. f_equal. apply (tnth h h' (l_cfg f) Hh). }
  eapply tfin_bind; [apply tpar_load_databases|exact T3|]. intros x ? s4 s4' <- T4.
  eapply tfin_bind; [apply tpar_set_dbs|exact T4|]. intros _ _ s5 s5' _ T5.
  pose proof (tpar_check_files files 0 (if snd x : bool then 127%Z else 0%Z) (if snd x : bool then 127%Z else 0%Z) [] []
    (fun _ => or_introl eq_refl) (Forall2_nil _) s5 s5' T5) as P.
  pose proof (gives_check_files O E files 0 (if snd x : bool then 127%Z else 0%Z) [] (conj (NoDup_nil _) (Forall_nil _)) s5 (t_ok _ _ T5)) as [_ G].
  pose proof (gives_check_files O E files 0 (if snd x : bool then 127%Z else 0%Z) [] (conj (NoDup_nil _) (Forall_nil _)) s5' (t_ok' _ _ T5)) as [_ G'].
  unfold bind at 1 4. destruct (check_files E O files 0 _ [] s5) as [[y|] s6], (check_files E O files 0 _ [] s5') as [[y'|] s6']; try contradiction.
  2:{ split; [now apply tst_near|exact Logic.I]. }
  cbn [fst snd] in G, G'. destruct P as [[P1 P2] P3].
  assert (AF : forall (er : bool), tcode er (if er && Z.eqb (fst y) 0 then 127%Z else fst y) (if er && Z.eqb (fst y') 0 then 127%Z else fst y')).
  { intros er Qq. destruct (P1 Qq) as [->|[-> ->]]; [now left|]. destruct er; cbn; auto. }
  destruct (o_update O) eqn:U.
  - destruct (write_twin _ _ P2 (seen_tidy _ G) (seen_tidy _ G') s6 s6' P3 U) as (W1 & W2 & W3). unfold bind.
    destruct (write_updated_configs E O _ s6) as [r t], (write_updated_configs E O _ s6') as [r' t']. cbn [fst snd] in *. subst r r'. cbn [get ret].
    destruct W3 as [W3 W4]. split; [split; assumption|]. cbn [fst snd]. rewrite <- W4. apply AF.
  - cbn [bind ret get]. apply tst_near in P3 as [W3 W4]. split; [split; assumption|]. cbn [fst snd]. rewrite <- W4. apply AF.
Qed.
Lemma tpar_find_lockfiles path pa : tpar eq (find_lockfiles E path pa) (find_lockfiles E path pa).
Proof.
  unfold find_lockfiles. destruct (match e_stat E path with KNoOpen => _ | _ => _ end) as [ls err].
  apply (tpar_bind eq); [destruct err; [apply tpar_error|now apply tpar_ret]|]. intros _ _ _. now apply tpar_ret.
Qed.
Lemma tpar_find_all : tpar eq (find_all_lockfiles E O) (find_all_lockfiles E O).
Proof.
  unfold find_all_lockfiles. destruct (seqb _ _); [now apply tpar_ret|]. induction (o_args O) as [|p ps IH]; cbn [find_all_loop]; [now apply tpar_ret|].
  destruct (split_parse_as p) as [a path]. apply (tpar_bind eq); [apply tpar_find_lockfiles|]. intros x ? <-. apply (tpar_bind eq); [apply IH|]. intros y ? <-. now apply tpar_ret.
Qed.
Lemma tfin_body s s' : tst s s' -> tfin (run_body E O s) (run_body E O s').
Proof.
  intros T. unfold run_body. destruct (o_version O).
  { apply tfin_same; [|exact T]. apply (tpar_bind eq); [apply tpar_text|]. intros _ _ _. now apply tpar_ret. }
  destruct (o_list_eco O).
  { apply tfin_same; [|exact T]. unfold print_known_ecosystems. generalize known_ecosystems. intros ke. apply (tpar_bind eq); [|intros _ _ _; now apply tpar_ret].
    apply (tpar_bind eq); [apply tpar_text|]. intros _ _ _. apply tpar_each. intros; apply tpar_text. }
  destruct (negb (known_parse_as _)).
  { generalize (list_parsers (e_sort E) (e_iter E)). intros lp. apply tfin_same; [|exact T].
    repeat (apply (tpar_bind eq); [first [apply tpar_error|apply tpar_each; intros; apply tpar_error]|intros _ _ _]). now apply tpar_ret. }
  eapply tfin_bind; [apply tpar_find_all|exact T|]. intros x ? s1 s1' <- T1. destruct (Nat.eqb _ 0).
  { apply tfin_same; [|exact T1]. apply (tpar_bind eq); [apply tpar_error|]. intros _ _ _. now apply tpar_ret. }
  assert (EC : plain_path empty_config) by now right.
  assert (AL : forall c c' s2 s2', tcfg c c' -> plain_path c -> plain_path c' -> tst s2 s2' -> forall cl,
    tfin (bind (alloc c) (fun cfg => run_files E O (fst x) cl cfg) s2) (bind (alloc c') (fun cfg => run_files E O (fst x) cl cfg) s2')).
  { intros c c' s2 s2' C P P' T2 cl. eapply tfin_bind; [now apply tpar_alloc|exact T2|]. intros cfg ? s3 s3' <- T3. now apply tfin_files. }
  unfold run_config. destruct (o_list_pkgs O); [apply AL; auto using tcfg_refl|]. destruct (_ && _); [|apply AL; auto using tcfg_refl].
  eapply tfin_bind; [apply tpar_load_cfg|exact T1|]. intros [e|c] [e'|c'] s2 s2' C T2; cbn [tres] in C; try contradiction.
  - subst e'. apply tfin_same; [|exact T2]. apply (tpar_bind eq); [apply tpar_error|]. intros _ _ _. now apply tpar_ret.
  - destruct C as (C1 & C2 & C3). now apply AL.
Qed.
Lemma tfin_run cache cache' : (forall p, cache p = cache' p) -> tfin (run E O (start fs cache)) (run E O (start fs' cache')).
Proof.
  intros HC. assert (T : tst (start fs cache) (start fs' cache')) by (split; cbn; auto; constructor).
  pose proof (tfin_body _ _ T) as [N C]. unfold run.
  destruct (run_body E O (start fs cache)) as [r s1], (run_body E O (start fs' cache')) as [r' s1']. cbn [fst snd] in N, C.
  destruct (o_json O) eqn:J; [|split; assumption]. cbn [print_json_results bind get]. split; [|exact C]. cbn [snd].
  exact (tnear_emit _ _ s1 s1' (tw_doc _ _ _ _ J) N).
Qed.
End Twin.

Lemma twins E O I fs fs' cache cache' : SorterOk (e_sort E) -> IterOk (e_iter E) -> reignored (e_dec_yaml E) I fs fs' -> (forall p, cache p = cache' p) ->
  tfin O I fs fs' (run E O (start fs cache)) (run E O (start fs' cache')).
Proof. intros HS HI RE HC. destruct E. now apply tfin_run. Qed.
