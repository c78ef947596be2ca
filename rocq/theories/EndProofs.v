From Verif Require Import GoStr GoStrFacts GoSort GoMap Types Osv OsvSpec OsvProofs MemDB MemDBSpec MemDBProofs Path Api ZipDB ZipSpec ZipProofs DirDB DirDBSpec DirDBProofs DbConfig Configer ConfigSpec ConfigProofs Lockfile Json Report ReportSpec ReportProofs Main MainSpec MainTrace MainProofs DiscoverProofs RunProofs RunFacts RunEnd EndSpec.

(** ** one advisory in a check that finished *)
Lemma bucket_keeps S sem pkg : forall addrs h acc vs h', bucket_loop S sem pkg h addrs acc = Ok (vs, h') -> incl acc vs.
Proof.
  induction addrs as [|i addrs IH]; intros h acc vs h' H; cbn [bucket_loop] in H.
  - injection H as <- <-. apply incl_refl.
  - destruct (o_withdrawn (deref h i)); [eapply IH; exact H|]. destruct (is_affected S sem (deref h i) pkg) as [[b v']|]; [|discriminate].
    cbn [rbind] in H. destruct (b && negb (includes acc v')); [|eapply IH; exact H].
    intros x X. eapply IH; [exact H|]. apply in_or_app. now left.
Qed.
Lemma bucket_has S sem pkg os : SorterOk S -> forall addrs h acc vs h' i, Forall2 osv_same os h ->
  bucket_loop S sem pkg h addrs acc = Ok (vs, h') -> In i addrs -> i < List.length os ->
  let o := nth i os no_osv in o_withdrawn o = None -> checkable sem [o] pkg -> osv_affects sem o pkg ->
  exists v, In v vs /\ alike o v.
Proof.
  intros HS. induction addrs as [|j addrs IH]; intros h acc vs h' i F H I L o W C A; [destruct I|].
  cbn [bucket_loop] in H. assert (Hv : forall k, osv_same (nth k os no_osv) (deref h k)) by (intros k; apply (MemDBProofs.Forall2_nth osv_same); [exact F|apply osv_same_refl]).
  destruct I as [->|I].
  - assert (W' : o_withdrawn (deref h i) = None) by (destruct (Hv i); fold o in os_withdrawn; congruence). rewrite W' in H.
    destruct C as [VO P WF]. inversion WF as [|? ? WF1 _]; subst.
    destruct (is_affected_spec S sem (deref h i) pkg HS VO (wf_osv_same _ _ _ _ (Hv i) WF1) P) as (b & v' & Q & Sm & B).
    rewrite Q in H. cbn [rbind] in H. assert (b = true) as -> by (apply B; eapply osv_affects_same; [apply Hv|exact A]). cbn [andb] in H.
    assert (OV : osv_same o v') by (eapply osv_same_trans; [apply Hv|exact Sm]).
    destruct (includes acc v') eqn:In1; cbn [negb] in H.
    + apply includes_iff in In1 as (x & X1 & X2). exists x. split; [eapply bucket_keeps; eauto|]. right.
      eapply related_same; [apply osv_same_refl|apply osv_same_sym; exact OV|exact X2].
    + exists v'. split; [eapply bucket_keeps; [exact H|]; apply in_or_app; right; now left|]. now left.
  - destruct (o_withdrawn (deref h j)); [eapply IH; eauto|]. destruct (is_affected S sem (deref h j) pkg) as [[b v']|] eqn:Q; [|discriminate].
    cbn [rbind] in H. assert (F' : Forall2 osv_same os (heap_set h j v')).
    { apply Forall2_heap_set; [exact F|]. eapply osv_same_trans; [apply Hv|]. eapply is_affected_frame; eauto. }
    destruct (b && negb (includes acc v')); eapply IH; eauto.
Qed.
Lemma bucket_from S sem pkg os : SorterOk S -> forall addrs h acc vs h', Forall2 osv_same os h ->
  bucket_loop S sem pkg h addrs acc = Ok (vs, h') -> (forall i, In i addrs -> i < List.length os) -> forall v, In v vs ->
  In v acc \/ exists o, In o os /\ osv_same o v /\ o_withdrawn o = None /\ (checkable sem [o] pkg -> osv_affects sem o pkg).
Proof.
  intros HS. induction addrs as [|j addrs IH]; intros h acc vs h' F H L v V; cbn [bucket_loop] in H.
  - injection H as <- <-. now left.
  - assert (Hv : osv_same (nth j os no_osv) (deref h j)) by (apply (MemDBProofs.Forall2_nth osv_same); [exact F|apply osv_same_refl]).
    assert (L' : forall i, In i addrs -> i < List.length os) by (intros i I; apply L; now right).
    destruct (o_withdrawn (deref h j)) eqn:W; [eapply IH; eauto|]. destruct (is_affected S sem (deref h j) pkg) as [[b v']|] eqn:Q; [|discriminate].
    cbn [rbind] in H. assert (Sm : osv_same (nth j os no_osv) v') by (eapply osv_same_trans; [exact Hv|]; eapply is_affected_frame; eauto).
    assert (F' : Forall2 osv_same os (heap_set h j v')) by (apply Forall2_heap_set; assumption).
    destruct b; cbn [andb] in H; [|eapply IH; eauto]. destruct (includes acc v'); cbn [negb] in H; [eapply IH; eauto|].
    destruct (IH _ _ _ _ F' H L' v V) as [I|I]; [|now right]. apply in_app_or in I as [I|[<-|[]]]; [now left|]. right.
    exists (nth j os no_osv). split; [apply nth_In, L; now left|]. split; [exact Sm|]. split; [destruct Hv; congruence|].
    intros [VO P WF]. inversion WF as [|? ? WF1 _]; subst.
    destruct (is_affected_spec S sem (deref h j) pkg HS VO (wf_osv_same _ _ _ _ Hv WF1) P) as (b & v2 & Q2 & _ & B).
    rewrite Q in Q2. injection Q2 as <- <-. eapply osv_affects_same; [apply osv_same_sym; exact Hv|]. now apply B.
Qed.
Lemma affecting_has S sem names os db pkg vs db' o : SorterOk S -> db_state names os db ->
  vulnerabilities_affecting S sem db pkg = Ok (vs, db') -> names = [] \/ In (p_name pkg) names -> has_char ":" (p_eco pkg) = false ->
  In o os -> o_withdrawn o = None -> checkable sem [o] pkg -> osv_affects sem o pkg -> exists v, In v vs /\ alike o v.
Proof.
  intros HS [Dh Dv _] H Hn Hc I W C A. rewrite affecting_as_loop, Dv in H. destruct (load_all_spec names os) as (_ & _ & Hb). rewrite Hb in H.
  destruct (bucket_loop _ _ _ _ _ _) as [[vs0 h']|] eqn:Q; [|discriminate]. injection H as <- _.
  assert (K : In o (filter (keep names) os)) by (apply filter_In; split; [exact I|]; eapply affects_keep; eauto).
  destruct (In_nth _ _ no_osv K) as (i & L & N).
  destruct (bucket_has S sem pkg _ HS _ _ _ _ _ i Dh Q) as (v & V1 & V2); rewrite ?N; auto; [|exists v; split; [exact V1|now rewrite N in V2]].
  apply block_in. split; [lia|]. rewrite Nat.sub_0_r, N. now apply (affects_hits sem).
Qed.
Lemma affecting_from S sem names os db pkg vs db' v : SorterOk S -> db_state names os db ->
  vulnerabilities_affecting S sem db pkg = Ok (vs, db') -> In v vs ->
  exists o, In o os /\ osv_same o v /\ o_withdrawn o = None /\ (checkable sem [o] pkg -> osv_affects sem o pkg).
Proof.
  intros HS [Dh Dv _] H V. rewrite affecting_as_loop, Dv in H. destruct (load_all_spec names os) as (_ & _ & Hb). rewrite Hb in H.
  destruct (bucket_loop _ _ _ _ _ _) as [[vs0 h']|] eqn:Q; [|discriminate]. injection H as <- _.
  destruct (bucket_from S sem pkg _ HS _ _ _ _ _ Dh Q) with (v := v) as [[]|(o & O1 & O2)]; auto.
  - intros i I. apply block_in in I. lia.
  - exists o. split; [now apply filter_In in O1|exact O2].
Qed.
Lemma check_nth S sem names os : SorterOk S -> forall pkgs db rs db', db_state names os db -> check S sem db pkgs = Ok (rs, db') ->
  forall i p, nth_error pkgs i = Some p -> exists db1 db2 vs, db_state names os db1
    /\ vulnerabilities_affecting S sem db1 p = Ok (vs, db2) /\ nth_error rs i = Some vs.
Proof.
  intros HS. induction pkgs as [|q pkgs IH]; intros db rs db' D H i p N; [destruct i; discriminate|]. cbn [check] in H.
  destruct (vulnerabilities_affecting S sem db q) as [[vs db1]|] eqn:Q; [|discriminate]. cbn [rbind] in H.
  destruct (check S sem db1 pkgs) as [[rest db2]|] eqn:R; [|discriminate]. injection H as <- <-.
  destruct i as [|i]; cbn in N |- *.
  - injection N as <-. eauto 6.
  - exact (IH db1 rest db2 (affecting_frame _ _ _ _ _ _ _ _ HS D Q) R i p N).
Qed.

(** ** reports *)
Lemma column_any i all x : column i all = Ok x -> x = found all i.
Proof.
  revert x. induction all as [|r all IH]; intros x H; cbn in H; [now injection H as <-|].
  destruct (nth_error r i) as [vs|] eqn:N; [|discriminate]. destruct (column i all) as [y|]; [|discriminate]. injection H as <-.
  unfold found. cbn [map concat]. rewrite (nth_error_nth _ _ _ N). f_equal. apply IH. reflexivity.
Qed.
Lemma rows_divided ignores all pkgs : forall i rows, transpose_all pkgs ignores i all = Ok rows ->
  map pv_pkg rows = pkgs /\ forall j row, nth_error rows j = Some row -> exists k, dedup_of (found all (i + j)) k /\ divided ignores k row.
Proof.
  induction pkgs as [|p ps IH]; intros i rows H; cbn [transpose_all] in H.
  - injection H as <-. split; [reflexivity|]. intros [|j]; discriminate.
  - unfold transpose in H. destruct (column i all) as [x|] eqn:Cq; [|discriminate]. apply column_any in Cq as ->. cbn [rbind] in H.
    destruct (fold_left _ _ _) as [a b] eqn:Fq. cbn [rbind] in H. destruct (transpose_all ps ignores (i + 1) all) as [xs|] eqn:T; [|discriminate].
    injection H as <-. destruct (IH _ _ T) as [I1 I2]. split; [cbn; now rewrite I1|]. intros [|j] row N; cbn in N.
    + injection N as <-. rewrite Nat.add_0_r. destruct (fold_divided ignores (found all i) (a, b) (eq_sym Fq)) as (k & D & S1 & S2).
      exists k. split; [exact D|]. split; assumption.
    + replace (i + S j) with (i + 1 + j) by lia. now apply I2.
Qed.

(** ** what is used is determined *)
Lemma inputs_unique E O l e l' e' : inputs E O l e -> inputs E O l' e' -> l = l' /\ e = e'.
Proof.
  intros H H'. destruct H as [Q|l e Q F], H' as [Q'|l' e' Q' F']; auto; try contradiction.
  eapply (finds_all_unique E E); [exact F|apply same_entries_refl|exact F'].
Qed.
Lemma mode_unique E O fs m m' : mode_of E O fs m -> mode_of E O fs m' -> m = m'.
Proof. intros H H'. destruct H as [Q|Q1 Q2|c errs Q1 Q2 Q3], H' as [R|R1 R2|c' errs' R1 R2 R3]; try congruence; try contradiction. Qed.
Lemma config_unique E fs path m c c' : config_for E fs path m c -> config_for E fs path m c' -> c = c'.
Proof. intros H H'. destruct H as [c|c errs Q|e Q]; inversion H'; subst; congruence. Qed.
Lemma reads_unique E O fs m p r r' : reads E O fs m p r -> reads E O fs m p r' -> r = r'.
Proof.
  intros H H'. destruct H as [Q|c l e Q1 Q2|c l Q1 Q2], H' as [R|c' l' e' R1 R2|c' l' R1 R2]; try reflexivity;
    try (pose proof (config_unique _ _ _ _ _ _ Q R1) as X; discriminate);
    try (pose proof (config_unique _ _ _ _ _ _ Q1 R) as X; discriminate); try congruence.
  pose proof (config_unique _ _ _ _ _ _ Q1 R1) as X. injection X as <-. congruence.
Qed.
Lemma all_reads_unique E O fs m ps : forall rs rs', Forall2 (reads E O fs m) ps rs -> Forall2 (reads E O fs m) ps rs' -> rs = rs'.
Proof.
  induction ps as [|p ps IH]; intros rs rs' H H'; inversion H; inversion H'; subst; [reflexivity|]. f_equal; [eapply reads_unique; eauto|auto].
Qed.
Lemma uses_in E O fs l e mode rs lf c d : inputs E O l e -> mode_of E O fs mode -> Forall2 (reads E O fs mode) (map as_arg l) rs ->
  uses E O fs lf c d -> In (lf, c) (usables rs) /\ asks O (usables rs) mode lf c d.
Proof.
  intros I M R (l' & e' & m' & rs' & I' & M' & R' & X). destruct (inputs_unique _ _ _ _ _ _ I I') as [<- <-].
  pose proof (mode_unique _ _ _ _ _ M M') as <-. now rewrite (all_reads_unique _ _ _ _ _ _ _ R R').
Qed.

(** ** identifiers *)
Lemma entries_types parse l cs es : entries parse l cs es -> Forall (fun c => loadable_type (dc_type c)) cs.
Proof. induction 1 as [|r c l cs es A H IH|r e l cs es A H IH]; auto. constructor; [apply A|exact IH]. Qed.
Lemma config_types E fs path m c : (forall c, m = Same c -> Forall (fun d => loadable_type (dc_type d)) (cf_dbs c)) ->
  config_for E fs path m (Some c) -> Forall (fun d => loadable_type (dc_type d)) (cf_dbs c).
Proof.
  assert (LC : forall p c errs, load_config (w_parse_uri (e_world E)) (e_dec_yaml E) fs p = inr (c, errs) -> Forall (fun d => loadable_type (dc_type d)) (cf_dbs c)).
  { intros p c0 errs L. apply load_config_good in L as (raw & _ & _ & _ & En). eapply entries_types; eauto. }
  intros Hm H. inversion H as [c0|c0 errs F|]; subst; [now apply Hm|]. unfold find_config in F.
  destruct (load_config _ _ fs (_ +s+ "/" +s+ ".osv-detector" +s+ ".yml")) as [[| |]|[c1 e1]] eqn:L1; try discriminate;
    [|injection F as <- <-; eapply LC; exact L1].
  destruct (load_config _ _ fs (_ +s+ "/" +s+ ".osv-detector" +s+ ".yaml")) as [[| |]|[c2 e2]] eqn:L2; try discriminate;
    injection F as <- <-; [constructor|eapply LC; exact L2].
Qed.
Lemma uses_type E O fs l c d : uses E O fs l c d -> loadable_type (dc_type d).
Proof.
  intros (ps & e & m & rs & _ & M & R & I & A).
  assert (Hm : forall c, m = Same c -> Forall (fun d => loadable_type (dc_type d)) (cf_dbs c)).
  { intros c0 ->. inversion M as [Q| |c1 errs Q1 Q2 L]; subst; [constructor|]. apply load_config_good in L as (raw & _ & _ & _ & En). eapply entries_types; eauto. }
  assert (T : forall l c, In (l, c) (usables rs) -> Forall (fun d => loadable_type (dc_type d)) (cf_dbs c)).
  { intros l1 c1 I1. unfold usables in I1. apply in_flat_map in I1 as ([|l2 c2] & I1 & I2); [destruct I2|]. destruct I2 as [I2|[]]. injection I2 as -> ->.
    assert (X : exists p, reads E O fs m p (Usable l1 c1)).
    { clear - R I1. induction R as [|p r ps' rs' H R IH]; [destruct I1|]. destruct I1 as [->|I1]; eauto. }
    destruct X as [p X]. inversion X; subst. eapply config_types; eauto. }
  assert (W : forall l c, In (l, c) (usables rs) -> wanted O l c d -> loadable_type (dc_type d)).
  { intros l1 c1 I1 [[_ W]|[[_ ->]|[_ (p & _ & _ & ->)]]]; [|right; left; reflexivity|left; reflexivity].
    specialize (T l1 c1 I1). rewrite Forall_forall in T. auto. }
  destruct A as [m l1 c1 d _ A|m l1 c1 d l0 c0 _ _ I0 A|m l1 c1 d us' l0 c0 _ _ Q A]; [eapply W; eauto|eapply W; eauto|].
  eapply (W l0 c0); [rewrite Q; apply in_or_app; right; now left|exact A].
Qed.
Lemma same_identifier E O fs l c d l' c' d' : distinct_names E O fs -> uses E O fs l c d -> uses E O fs l' c' d' ->
  identifier d = identifier d' -> dc_type d = dc_type d' /\ dc_url d = dc_url d' /\ dc_wd d = dc_wd d'.
Proof.
  intros DN U U'. apply identifier_inj; try (eapply DN; eassumption).
  - destruct (uses_type _ _ _ _ _ _ U) as [->|[->| ->]]; reflexivity.
  - destruct (uses_type _ _ _ _ _ _ U') as [->|[->| ->]]; reflexivity.
Qed.

(** ** what is loaded *)
Inductive content (E : Env) (O : Opts) (cache : files) (names : list string) (c : DBConfig) : DB -> list OSV -> Prop :=
| ct_zip : forall n date entries os, dc_type c = "zip" -> archive E O cache c entries ->
    archive_osvs (dc_wd c) (w_dec_osv (e_world E)) entries os ->
    content E O cache names c (ZipD n (identifier c) (load_all names os) date) os
| ct_dir : forall n os, dc_type c = "dir" -> (forall o, In o os <-> in_dir E c o) ->
    content E O cache names c (DirD n (identifier c) (load_all names os)) os.
Lemma loads_content E O cache names c db : loads_as E O cache names c (inr db) ->
  db_ident db = identifier c /\ (dc_type c = "api" /\ (exists a, db = ApiD a) \/ exists os, content E O cache names c db os).
Proof.
  intros (before & w & reqs & B & H). unfold load_db in H. destruct (seqb_spec (dc_type c) "zip") as [T|_].
  { destruct (zip_load _ _ _ _ _ _ _ _) as [[r w'] rq] eqn:Z. destruct r as [[e|[m date]]|]; cbn [rbind] in H; try discriminate.
    injection H as <- <- <-. split; [reflexivity|]. right. apply zip_load_spec in Z as (body & entries & os & F & U & A & ->).
    exists os. econstructor; eauto. exists before, body, date, w', rq. auto. }
  destruct (seqb_spec (dc_type c) "api") as [T|_].
  { destruct (new_api_db _ _ _ _ _ _) as [e|a] eqn:A; [discriminate|]. injection H as <- <- <-.
    unfold new_api_db in A. destruct (o_offline O); [discriminate|]. destruct (Z.ltb _ _); [discriminate|].
    destruct (w_parse_uri _ _); [|discriminate]. injection A as <-.
    split; [reflexivity|]. left. eauto. }
  destruct (seqb_spec (dc_type c) "dir") as [T|_]; [|discriminate].
  destruct (dir_load _ _ _ _ _ _) as [e|m] eqn:D; [discriminate|]. injection H as <- <- <-. split; [reflexivity|]. right.
  unfold dir_load in D. destruct (negb _); [discriminate|]. destruct (w_parse_uri (e_world E) (dc_url c)) as [u|] eqn:U; [|discriminate].
  set (p := path_join [trim_prefix (u_path u) "/"; dc_wd c]) in *.
  assert (G : forall q, ~ at_path (w_tree (e_world E) p) q NGone).
  { intros q Q. rewrite (visits_gone (w_dec_osv (e_world E)) names _ (ex_intro _ q Q)) in D. discriminate. }
  rewrite (visits_listing (w_dec_osv (e_world E)) names _ G) in D. injection D as <-.
  exists (map snd (DirDBProofs.listing (w_dec_osv (e_world E)) (path_base p) (w_tree (e_world E) p))). apply (ct_dir E O cache names c (dc_name c)); [exact T|].
  intros o. rewrite in_map_iff. split.
  - intros ([q o'] & <- & I). apply listing_at in I. exists u, q. auto.
  - intros (u' & q & U' & I). rewrite U in U'. injection U' as <-. exists (q, o). split; [reflexivity|]. now apply listing_at.
Qed.
Lemma archive_in wd dec entries os o : archive_osvs wd dec entries os -> (In o os <-> exists e, In e entries /\ ZipSpec.wanted wd dec e o).
Proof.
  induction 1 as [|e l o' os W H IH|e l os N H IH]; cbn [In].
  - split; [intros []|intros (e & [] & _)].
  - rewrite IH. split.
    + intros [<-|(e' & I & W')]; eauto.
    + intros (e' & [<-|I] & W'); [|eauto]. left. destruct W as (_ & _ & x & X1 & X2), W' as (_ & _ & y & Y1 & Y2). congruence.
  - rewrite IH. split.
    + intros (e' & I & W'); eauto.
    + intros (e' & [<-|I] & W'); [now elim (N o)|eauto].
Qed.
Lemma content_must E O cache names c db os o : content E O cache names c db os -> must_hold E O cache c o -> In o os.
Proof.
  intros [n date entries os' T A S|n os' T I] [T' H|T' H]; try congruence.
  - apply (archive_in _ _ _ _ _ S). now apply H.
  - now apply I.
Qed.
Lemma content_may E O cache names c db os o : content E O cache names c db os -> In o os -> may_hold E O cache c o.
Proof.
  intros [n date entries os' T A S|n os' T I] H.
  - eapply mh_zip; eauto. now apply (archive_in _ _ _ _ _ S).
  - apply mh_dir; [exact T|]. now apply I.
Qed.
Lemma must_same E O cache c d o : dc_type c = dc_type d -> dc_url c = dc_url d -> dc_wd c = dc_wd d -> must_hold E O cache c o -> must_hold E O cache d o.
Proof.
  intros T U W [T' H|T' H].
  - apply st_zip; [congruence|]. unfold archive, in_archive in *. now rewrite <- U, <- W.
  - apply st_dir; [congruence|]. unfold in_dir in *. now rewrite <- U, <- W.
Qed.
Lemma may_same E O cache c d o : dc_type c = dc_type d -> dc_url c = dc_url d -> dc_wd c = dc_wd d -> may_hold E O cache c o -> may_hold E O cache d o.
Proof.
  intros T U W [entries T' A H|T' H].
  - apply mh_zip with entries; [congruence| |]; unfold archive, in_archive in *; now rewrite <- ?U, <- ?W.
  - apply mh_dir; [congruence|]. unfold in_dir in *. now rewrite <- U, <- W.
Qed.
Lemma loaded_in E O cache names : forall cs ds fs, loaded E O cache names cs ds fs ->
  (forall c, In c cs -> fs = [] -> exists db, In db ds /\ loads_as E O cache names c (inr db))
  /\ (forall db, In db ds -> exists c, In c cs /\ loads_as E O cache names c (inr db)).
Proof.
  induction 1 as [|c cs d ds fs L H [I1 I2]|c cs e ds fs L H [I1 I2]]; (split; [|]).
  - intros c [].
  - intros db [].
  - intros x [<-|X] F; [exists d; cbn; auto|]. destruct (I1 x X F) as (db & D1 & D2). exists db. cbn. auto.
  - intros db [<-|D]; [exists c; cbn; auto|]. destruct (I2 db D) as (x & X1 & X2). exists x. cbn. auto.
  - intros x _ F. discriminate.
  - intros db D. destruct (I2 db D) as (x & X1 & X2). exists x. cbn. auto.
Qed.
Lemma Forall2_left {A B} (R : A -> B -> Prop) l l' x : Forall2 R l l' -> In x l -> exists y, In y l' /\ R x y.
Proof. induction 1 as [|a b l l' H F IH]; intros []; [subst; exists b; cbn; auto|]. destruct IH as (y & Y1 & Y2); auto. exists y. cbn. auto. Qed.
Lemma Forall2_right {A B} (R : A -> B -> Prop) l l' y : Forall2 R l l' -> In y l' -> exists x, In x l /\ R x y.
Proof. induction 1 as [|a b l l' H F IH]; intros []; [subst; exists a; cbn; auto|]. destruct IH as (x & X1 & X2); auto. exists x. cbn. auto. Qed.
Lemma given_in {A} (l : list (option A)) a : In a (given l) <-> In (Some a) l.
Proof.
  unfold given. rewrite in_flat_map. split.
  - intros ([x|] & X & []); [now subst|contradiction].
  - intros H. exists (Some a). cbn. auto.
Qed.
Lemma selects_all {A} (P : A -> Prop) l s x : selects P l s -> In x l -> P x -> In x s.
Proof. intros S I p. apply (selects_in _ _ _ _ S). auto. Qed.

(** ** every advisory that applies is accounted for *)
Lemma session_accounts E O fs cache l0 e mode rs names ds tr : SorterOk (e_sort E) -> distinct_names E O fs ->
  inputs E O l0 e -> session E O fs cache mode (map as_arg l0) rs names ds tr -> failures tr = [] ->
  forall l c d p o, uses E O fs l c d -> In p (lf_pkgs l) -> has_char ":" (p_eco p) = false ->
  must_hold E O cache d o -> o_withdrawn o = None -> checkable (e_sem E) [o] p -> osv_affects (e_sem E) o p ->
  accounts tr l p (ignores_of O c) o.
Proof.
  intros HS DN HI [S1 S2 S3 S4 S5 S6 S7 S8] HF l c d p o U P Col MH W C A.
  destruct (uses_in _ _ _ _ _ _ _ _ _ _ HI S1 S2 U) as [UI As].
  assert (Hd : In (identifier d) (map identifier (loads tr))) by (apply S4; eauto 6).
  apply in_map_iff in Hd as (d' & Id & D'). destruct (S8 d' D') as (l' & c' & U1 & As1).
  assert (Us' : uses E O fs l' c' d') by (exists l0, e, mode, rs; auto).
  destruct (same_identifier _ _ _ _ _ _ _ _ _ DN U Us' (eq_sym Id)) as (Q1 & Q2 & Q3).
  apply (must_same _ _ _ _ _ _ Q1 Q2 Q3) in MH.
  destruct (proj1 (loaded_in _ _ _ _ _ _ _ S6) d' D' HF) as (db & DB1 & DB2).
  destruct (loads_content _ _ _ _ _ _ DB2) as [Iq [[T _]|(os & Ct)]].
  { destruct MH; congruence. }
  pose proof (content_must _ _ _ _ _ _ _ _ Ct MH) as Io.
  destruct (Forall2_left _ _ _ _ S7 UI) as (ck & K1 & k & ce & Ef & Co).
  destruct Ef as (Ef1 & Ef2 & Ef3). destruct Co as [used ans rows Us An Tr].
  assert (Iu : In db used).
  { apply (selects_all _ _ _ _ Us DB1). rewrite Iq, Id. apply Ef3. eauto. }
  destruct (Forall2_left _ _ _ _ An Iu) as (an & An1 & An2).
  destruct (In_nth_error _ _ P) as (i & Ni).
  assert (V : exists rsl vs v, an = Some rsl /\ nth_error rsl i = Some vs /\ In v vs /\ alike o v).
  { assert (Hn : names = [] \/ In (p_name p) names) by (right; exact (S3 _ _ _ UI P)).
    destruct Ct as [n date entries os' T Ar Ao|n os' T I]; inversion An2; subst;
      match goal with Hh : history _ _ _ ?dbx, Hc : check _ _ ?dbx _ = Ok _ |- _ =>
        apply (history_state _ _ _ _ _ _ HS (db_state_load _ _)) in Hh;
        destruct (check_nth _ _ _ _ HS _ _ _ _ Hh Hc i p Ni) as (db1 & db2 & vs & Y1 & Y2 & Y3);
        destruct (affecting_has _ _ _ _ _ _ _ _ o HS Y1 Y2 Hn Col Io W C A) as (v & V1 & V2); eauto 8
      end. }
  destruct V as (rsl & vs & v & -> & Nv & V1 & V2).
  destruct (rows_divided _ _ _ _ _ Tr) as [R1 R2].
  assert (Lr : i < List.length rows) by (rewrite <- (map_length pv_pkg rows), R1; apply nth_error_Some; congruence).
  destruct (nth_error rows i) as [row|] eqn:Nr; [|apply nth_error_None in Nr; lia].
  assert (Pr : pv_pkg row = p) by (apply (map_nth_error pv_pkg) in Nr; rewrite R1 in Nr; congruence).
  destruct (R2 i row Nr) as (kk & Dk & Dv). cbn [Nat.add] in Dk.
  assert (Vf : In v (found (given ans) i)).
  { unfold found. apply in_concat. exists (nth i rsl []). split; [apply in_map_iff; exists rsl; split; [reflexivity|now apply given_in]|].
    now rewrite (nth_error_nth _ _ _ Nv). }
  destruct (dedup_props _ _ Dk) as (_ & _ & Dc). destruct Dv as [Dv1 Dv2].
  assert (G : exists g, In g kk /\ (g = v \/ related g v)).
  { exact (Dc v Vf). }
  destruct G as (g & G1 & G2). unfold accounts. eexists _, row, v, g. split; [exact K1|]. cbn [ck_report rp_lock rp_pkgs].
  split; [reflexivity|]. split; [eapply nth_error_In; eauto|]. split; [exact Pr|]. split; [exact V2|]. split; [exact G2|].
  unfold ignores_of in *. rewrite Ef2 in Dv1, Dv2.
  destruct (in_dec string_dec (o_id g) (ignores_of O c)) as [X|X]; unfold ignores_of in X.
  - right. split; [apply (selects_in _ _ _ _ Dv2); auto|exact X].
  - left. split; [apply (selects_in _ _ _ _ Dv1); auto|exact X].
Qed.

Theorem run_accounts E O : SorterOk (e_sort E) -> IterOk (e_iter E) -> EntriesOk E ->
  forall fs cache code s', checking O -> distinct_names E O fs -> run E O (start fs cache) = (Ok code, s') -> code = 0%Z \/ code = 1%Z ->
  forall l c d p o, uses E O fs l c d -> In p (lf_pkgs l) -> has_char ":" (p_eco p) = false ->
  must_hold E O cache d o -> o_withdrawn o = None -> checkable (e_sem E) [o] p -> osv_affects (e_sem E) o p ->
  accounts (s_trace s') l p (ignores_of O c) o.
Proof.
  intros HS HI HE fs cache code s' HC DN H Hc. pose proof (run_outcome E O HS HI HE fs cache code s' HC H) as Out.
  destruct Out as [| e | | l0 e mode rs names ds code K I N Ss Ex Mi].
  - destruct Hc; discriminate.
  - destruct (negb e && _); destruct Hc; discriminate.
  - destruct Hc; discriminate.
  - assert (F : failures (s_trace s') = []) by (destruct Ex; auto; destruct Hc; discriminate).
    eapply session_accounts; eauto.
Qed.
Theorem clean_ignored E O : SorterOk (e_sort E) -> IterOk (e_iter E) -> EntriesOk E ->
  forall fs cache s', checking O -> distinct_names E O fs -> run E O (start fs cache) = (Ok 0%Z, s') ->
  forall l c d p o, uses E O fs l c d -> In p (lf_pkgs l) -> has_char ":" (p_eco p) = false ->
  must_hold E O cache d o -> o_withdrawn o = None -> checkable (e_sem E) [o] p -> osv_affects (e_sem E) o p ->
  exists r g, alike o r /\ (g = r \/ related g r) /\ In (o_id g) (ignores_of O c).
Proof.
  intros HS HI HE fs cache s' HC DN H l c d p o U P Col MH W C A.
  destruct (run_accounts E O HS HI HE fs cache 0%Z s' HC DN H (or_introl eq_refl) l c d p o U P Col MH W C A)
    as (ck & row & r & g & K1 & K2 & K3 & K4 & K5 & K6 & [[G1 G2]|[G1 G2]]); [|eauto].
  exfalso. destruct (proj1 (exit_zero E O HS HI HE fs cache 0%Z s' HC H) eq_refl) as [_ X]. apply X. apply Exists_exists. exists ck. split; [exact K1|].
  unfold flawed, advisories. intros Q. assert (Y : In g (concat (map pv_vulns (rp_pkgs (ck_report ck))))) by (apply in_concat; exists (pv_vulns row); split; [now apply in_map|exact G1]).
  rewrite Q in Y. destruct Y.
Qed.

(** ** a run that finds something has grounds *)
(** ** every advisory reported has grounds *)
Lemma session_grounds E O fs cache l0 e mode rs names ds tr : SorterOk (e_sort E) -> distinct_names E O fs ->
  inputs E O l0 e -> session E O fs cache mode (map as_arg l0) rs names ds tr ->
  forall ck row v, In ck (checks tr) -> In row (rp_pkgs (ck_report ck)) -> In v (pv_vulns row ++ pv_ignored row) ->
  exists c d, uses E O fs (rp_lock (ck_report ck)) c d /\ In (pv_pkg row) (lf_pkgs (rp_lock (ck_report ck)))
    /\ (In v (pv_vulns row) -> ~ In (o_id v) (ignores_of O c)) /\ (In v (pv_ignored row) -> In (o_id v) (ignores_of O c))
    /\ grounds E O cache d (rp_lock (ck_report ck)) (pv_pkg row) v.
Proof.
  intros HS DN I [S1 S2 S3 S4 S5 S6 S7 S8] ck row v K1 Ir V.
  destruct (Forall2_right _ _ _ _ S7 K1) as ([l c] & UI & k & ce & (Ef1 & Ef2 & Ef3) & Co).
  destruct Co as [used ans rows Us An Tr]. cbn [ck_report rp_pkgs rp_lock] in *.
  destruct (In_nth_error _ _ Ir) as (i & Nr).
  destruct (rows_divided _ _ _ _ _ Tr) as [R1 R2]. destruct (R2 i row Nr) as (kk & Dk & Dv1 & Dv2). cbn [Nat.add] in Dk.
  assert (Np : nth_error (lf_pkgs l) i = Some (pv_pkg row)) by (rewrite <- R1; now apply map_nth_error).
  assert (Vk : In v kk) by (apply in_app_or in V as [V|V]; [apply (selects_in _ _ _ _ Dv1) in V|apply (selects_in _ _ _ _ Dv2) in V]; apply V).
  destruct (dedup_props _ _ Dk) as (Dinc & _). apply Dinc in Vk.
  unfold found in Vk. apply in_concat in Vk as (x & X1 & X2). apply in_map_iff in X1 as (rsl & <- & X1). apply given_in in X1.
  destruct (Forall2_right _ _ _ _ An X1) as (db & Du & Da). apply (selects_in _ _ _ _ Us) in Du as [Dd Di].
  apply Ef3 in Di as (d & As & Id). destruct (proj2 (loaded_in _ _ _ _ _ _ _ S6) db Dd) as (d' & D1 & D2).
  destruct (S8 d' D1) as (l' & c' & U' & As').
  assert (Us0 : uses E O fs l c d) by (exists l0, e, mode, rs; auto). assert (Us' : uses E O fs l' c' d') by (exists l0, e, mode, rs; auto).
  destruct (loads_content _ _ _ _ _ _ D2) as [Iq Ct]. rewrite Iq in Id.
  destruct (same_identifier _ _ _ _ _ _ _ _ _ DN Us' Us0 (eq_sym Id)) as (Q2 & Q3 & Q4).
  exists c, d. split; [exact Us0|]. split; [eapply nth_error_In; eauto|].
  split; [|split].
  { intros Z. apply (selects_in _ _ _ _ Dv1) in Z as [_ Z]. unfold ignores_of in *. now rewrite Ef2 in Z. }
  { intros Z. apply (selects_in _ _ _ _ Dv2) in Z as [_ Z]. unfold ignores_of in *. now rewrite Ef2 in Z. }
  unfold grounds. destruct Ct as [[T (a & ->)]|(os & Ct)].
  - left. split; [congruence|]. inversion Da; subst. exists k, a, rsl, i. split; [cbn in Iq; congruence|]. auto.
  - right. assert (Y : exists o, In o os /\ osv_same o v /\ o_withdrawn o = None /\ (checkable (e_sem E) [o] (pv_pkg row) -> osv_affects (e_sem E) o (pv_pkg row))).
    { destruct Ct as [n date entries os' T Ar Ao|n os' T I']; inversion Da; subst;
      match goal with Hh : history _ _ _ ?dbx, Hc : check _ _ ?dbx _ = Ok _ |- _ =>
        apply (history_state _ _ _ _ _ _ HS (db_state_load _ _)) in Hh;
        destruct (check_nth _ _ _ _ HS _ _ _ _ Hh Hc i _ Np) as (db1 & db2 & vs' & Y1 & Y2 & Y3);
        rewrite (nth_error_nth _ _ _ Y3) in X2; eapply affecting_from; eauto
      end. }
    destruct Y as (o & O1 & O2 & O3). exists o. split; [exact O2|]. split; [|exact O3].
    eapply (may_same _ _ _ d' d); auto. eapply content_may; eauto.
Qed.
Theorem run_every E O : SorterOk (e_sort E) -> IterOk (e_iter E) -> EntriesOk E ->
  forall fs cache code s', checking O -> distinct_names E O fs -> run E O (start fs cache) = (Ok code, s') ->
  forall ck row v, In ck (checks (s_trace s')) -> In row (rp_pkgs (ck_report ck)) -> In v (pv_vulns row ++ pv_ignored row) ->
  exists c d, uses E O fs (rp_lock (ck_report ck)) c d /\ In (pv_pkg row) (lf_pkgs (rp_lock (ck_report ck)))
    /\ (In v (pv_vulns row) -> ~ In (o_id v) (ignores_of O c)) /\ (In v (pv_ignored row) -> In (o_id v) (ignores_of O c))
    /\ grounds E O cache d (rp_lock (ck_report ck)) (pv_pkg row) v.
Proof.
  intros HS HI HE fs cache code s' HC DN H ck row v K. pose proof (run_outcome E O HS HI HE fs cache _ s' HC H) as Out.
  assert (Idle : idle (s_trace s') -> False) by (intros [Id _]; rewrite Id in K; destruct K).
  destruct Out as [| | |l0 e mode rs names ds code K0 I N S Ex Mi]; try (exfalso; apply Idle; assumption).
  eapply session_grounds; eauto.
Qed.
Theorem run_grounds E O : SorterOk (e_sort E) -> IterOk (e_iter E) -> EntriesOk E ->
  forall fs cache s', checking O -> distinct_names E O fs -> run E O (start fs cache) = (Ok 1%Z, s') ->
  exists l c d p v, uses E O fs l c d /\ In p (lf_pkgs l) /\ ~ In (o_id v) (ignores_of O c) /\ grounds E O cache d l p v.
Proof.
  intros HS HI HE fs cache s' HC DN H. pose proof (run_outcome E O HS HI HE fs cache _ s' HC H) as Out.
  assert (Fl : Exists flawed (checks (s_trace s'))).
  { remember 1%Z as one eqn:Q1. destruct Out as [| e | | l0 e mode rs names ds code K I N S Ex Mi]; try discriminate.
    { destruct (negb e && _); discriminate. }
    destruct Ex; auto; discriminate. }
  apply Exists_exists in Fl as (ck & K1 & Fl). unfold flawed, advisories in Fl.
  destruct (concat (map pv_vulns (rp_pkgs (ck_report ck)))) as [|v rest] eqn:Cv; [congruence|].
  assert (V : In v (concat (map pv_vulns (rp_pkgs (ck_report ck))))) by (rewrite Cv; now left).
  apply in_concat in V as (vs & V1 & V2). apply in_map_iff in V1 as (row & <- & Ir).
  destruct (run_every E O HS HI HE fs cache _ s' HC DN H ck row v K1 Ir (in_or_app _ _ _ (or_introl V2))) as (c & d & A & B & C & _ & G).
  exists (rp_lock (ck_report ck)), c, d, (pv_pkg row), v. auto.
Qed.

(** ** which archive *)
Lemma load_write E O before d names r w rq : load_db (e_world E) before d (o_offline O) (o_batch O) names = (r, w, rq) -> w <> None ->
  w = f_write (fetch_zip (dc_url d) (o_offline O) before (w_answer (e_world E))).
Proof.
  intros H N. unfold load_db in H. destruct (seqb _ _); [unfold zip_load in H; cbv zeta in H; injection H as <- <- <-; reflexivity|].
  destruct (seqb _ _); [injection H as <- <- <-; congruence|]. destruct (seqb _ _); injection H as <- <- <-; congruence.
Qed.
Lemma cached_offline E O cache path before : o_offline O = true -> cached E O cache path before -> before = cache path.
Proof.
  intros Off. induction 1 as [|names c before r content reqs P C IH L]; [reflexivity|].
  pose proof (load_write _ _ _ _ _ _ _ _ L) as X. rewrite Off in X. unfold fetch_zip in X.
  destruct before as [b|]; [destruct (fst (dec_cache b))|]; cbn in X; now discriminate X.
Qed.
Theorem archive_offline E O cache d entries : o_offline O = true ->
  (archive E O cache d entries <-> exists c, cache (e_cache_path E (dc_url d)) = Some c
     /\ exists k, fst (dec_cache c) = Some k /\ w_unzip (e_world E) (match c_body k with Some b => b | None => "" end) = Some entries).
Proof.
  intros Off. split.
  - intros (before & body & date & w & rq & C & F & U). apply (cached_offline _ _ _ _ _ Off) in C as ->. rewrite Off in F. unfold fetch_zip in F.
    destruct (cache _) as [c|]; [|discriminate]. exists c. split; [reflexivity|]. destruct (fst (dec_cache c)) as [k|]; [|discriminate].
    exists k. split; [reflexivity|]. injection F as <- _ _ _. exact U.
  - intros (c & C & k & K & U). exists (Some c), (bytes (c_body k)), (c_date k), None, []. split; [rewrite <- C; constructor|].
    rewrite Off. unfold fetch_zip. rewrite K. auto.
Qed.
Lemma cached_history E O cache fs0 ds path before :
  zip_history (e_cache_path E) fs0 cache ds -> cached E O cache path before ->
  exists files ds', zip_history (e_cache_path E) fs0 files (ds ++ ds') /\ files path = before
    /\ forall x, In x ds' -> exists rq, rq_url rq = d_url x /\ w_answer (e_world E) rq = ZResp 200 (d_etag x) (d_date x) (Some (d_body x)).
Proof.
  intros H. induction 1 as [|names c before r content reqs P C IH L].
  - exists cache, []. rewrite app_nil_r. split; [exact H|]. split; [reflexivity|intros x []].
  - destruct IH as (files & ds' & Z & F & D). pose proof (load_write _ _ _ _ _ _ _ _ L ltac:(discriminate)) as X. rewrite <- F, <- P in X.
    assert (Zl := zh_load (e_cache_path E) fs0 files _ (dc_url c) (o_offline O) (w_answer (e_world E)) (Some content) _ Z eq_refl).
    cbv zeta in Zl. rewrite <- X in Zl. specialize (Zl (wr_part _ _ content "" (eq_sym (sapp_nil_r _)))). rewrite <- app_assoc in Zl.
    eexists _, _. split; [exact Zl|]. split; [unfold file_set; now rewrite P, seqb_refl|].
    intros x I. apply in_app_or in I as [I|I]; [auto|]. unfold downloads_of in I. apply in_flat_map in I as (rq & _ & I).
    exists rq. destruct (w_answer (e_world E) rq) as [| |st e dt [b|]] eqn:Aq; try contradiction.
    + destruct st as [|st|st]; try contradiction. repeat (destruct st as [st|st|]; try contradiction). destruct I as [<-|[]]. auto.
    + destruct st as [|st|st]; try contradiction. repeat (destruct st as [st|st|]; try contradiction).
Qed.
Theorem archive_current E O cache fs0 ds d etag body entries : o_offline O = false ->
  (forall u v, e_cache_path E u = e_cache_path E v -> u = v) -> (forall u, fs0 (e_cache_path E u) = None) ->
  zip_history (e_cache_path E) fs0 cache ds -> honest (dc_url d) etag body (w_answer (e_world E)) ->
  (forall x, In x ds -> d_url x = dc_url d -> to_valid (d_etag x) = etag -> d_body x = body) ->
  archive E O cache d entries -> w_unzip (e_world E) body = Some entries.
Proof.
  intros Off Inj Em Z Ho Hd (before & b & date & w & rq & C & F & U).
  destruct (cached_history _ _ _ _ _ _ _ Z C) as (files & ds' & Z' & Fp & D). rewrite Off, <- Fp in F.
  destruct (zip_current (e_cache_path E) fs0 files (ds ++ ds') (dc_url d) etag body (w_answer (e_world E)) Inj Em Z' Ho) as (r & R1 & R2).
  - intros x X Ux Ex. apply in_app_or in X as [X|X]; [auto|]. destruct (D x X) as (q & Q1 & Q2). destruct (Ho q) as [H200 _]; [congruence|]. eapply H200; eauto.
  - rewrite F in R1. cbn in R1. injection R1 as <-. now rewrite <- (R2 b date eq_refl).
Qed.
