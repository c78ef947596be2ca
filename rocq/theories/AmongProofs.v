From Verif Require Import GoStr GoStrFacts GoSort GoMap Types Osv OsvSpec OsvProofs MemDB MemDBSpec MemDBProofs Path Api ZipDB ZipSpec ZipProofs DirDB DirDBSpec DirDBProofs DbConfig Configer ConfigSpec ConfigProofs Lockfile LockfileSpec Json Csv Report ReportSpec ReportProofs Main MainSpec MainTrace MainProofs DiscoverProofs RunProofs RunFacts RunEnd EndSpec EndProofs AmongSpec.

(** ** arguments do not matter to loading *)
Lemma cached_args E O a cache path b : cached E (with_args O a) cache path b <-> cached E O cache path b.
Proof.
  split.
  - induction 1 as [|names c before r content reqs Q _ IH L]; [constructor|]. exact (ca_saved E O cache path names c before r content reqs Q IH L).
  - induction 1 as [|names c before r content reqs Q _ IH L]; [constructor|]. exact (ca_saved E (with_args O a) cache path names c before r content reqs Q IH L).
Qed.
Lemma archive_args E O a cache d es : archive E (with_args O a) cache d es <-> archive E O cache d es.
Proof.
  split; intros (before & body & date & w & rq & C & F & U); exists before, body, date, w, rq; (split; [|split; [exact F|exact U]]); now apply (cached_args E O a).
Qed.
Lemma may_args E O a cache d o : may_hold E (with_args O a) cache d o <-> may_hold E O cache d o.
Proof.
  split; intros [entries T A I|T I]; try (now apply mh_dir); apply mh_zip with entries; auto; now apply (archive_args E O a).
Qed.
Lemma mode_args E O a fs m : mode_of E (with_args O a) fs m <-> mode_of E O fs m.
Proof.
  split; intros H.
  - inversion H; [now apply mo_none|now apply mo_beside|now apply mo_global with errs].
  - inversion H; [now apply mo_none|now apply mo_beside|now apply mo_global with errs].
Qed.
Lemma steady_args E O a cache : steady E (with_args O a) cache <-> steady E O cache.
Proof.
  split; intros [H1 H2]; (split; [|exact H2]); intros d e1 e2 A1 A2; apply (H1 d); now apply (archive_args E O a).
Qed.

(** ** what a database holds, as a list *)
Inductive holds_list (E : Env) (O : Opts) (cache : files) (d : DBConfig) : list OSV -> Prop :=
| hl_zip : forall entries os, dc_type d = "zip" -> archive E O cache d entries ->
    archive_osvs (dc_wd d) (w_dec_osv (e_world E)) entries os -> holds_list E O cache d os
| hl_dir : forall u, dc_type d = "dir" -> w_parse_uri (e_world E) (dc_url d) = Some u ->
    let p := path_join [trim_prefix (u_path u) "/"; dc_wd d] in
    holds_list E O cache d (map snd (DirDBProofs.listing (w_dec_osv (e_world E)) (path_base p) (w_tree (e_world E) p))).
Lemma holds_args E O a cache d os : holds_list E (with_args O a) cache d os <-> holds_list E O cache d os.
Proof.
  split; intros [entries os' T A I|u T U]; try (now apply hl_dir); apply hl_zip with entries; auto; now apply (archive_args E O a).
Qed.
Lemma osvs_fun wd dec es : forall os os', archive_osvs wd dec es os -> archive_osvs wd dec es os' -> os = os'.
Proof.
  intros os os' H. revert os'. induction H as [|e l o os W H IH|e l os N H IH]; intros os' H'; inversion H'; subst; try reflexivity.
  - f_equal; [|now apply IH].
    destruct W as (_ & _ & x & X1 & X2). match goal with W' : ZipSpec.wanted _ _ e _ |- _ => destruct W' as (_ & _ & y & Y1 & Y2) end. congruence.
  - match goal with N : forall o, ~ ZipSpec.wanted _ _ e o |- _ => now elim (N o) end.
  - match goal with W' : ZipSpec.wanted _ _ e ?o |- _ => now elim (N o) end.
  - now apply IH.
Qed.
Lemma holds_fun E O cache d d' os os' : steady E O cache -> dc_type d = dc_type d' -> dc_url d = dc_url d' -> dc_wd d = dc_wd d' ->
  holds_list E O cache d os -> holds_list E O cache d' os' -> os = os'.
Proof.
  intros [St _] Q1 Q2 Q3 [es os1 T A I|u T U] [es' os2 T' A' I'|u' T' U']; try congruence.
  - assert (A2 : archive E O cache d es') by (unfold archive in *; now rewrite Q2).
    rewrite (St d es es' A A2) in I. rewrite Q3 in I. now apply (osvs_fun _ _ _ _ _ I I').
  - rewrite Q2 in U. rewrite U in U'. injection U' as <-. subst p p0. now rewrite Q3.
Qed.
Lemma holds_may E O cache d os o : holds_list E O cache d os -> In o os -> may_hold E O cache d o.
Proof.
  intros [es os' T A I|u T U] H.
  - eapply mh_zip; eauto. now apply (archive_in _ _ _ _ _ I).
  - apply mh_dir; [exact T|]. apply in_map_iff in H as ([q o'] & <- & I). apply listing_at in I. exists u, q. auto.
Qed.
Inductive backed (E : Env) (O : Opts) (cache : files) (names : list string) (d : DBConfig) : DB -> Prop :=
| bk_zip : forall n os date, holds_list E O cache d os -> backed E O cache names d (ZipD n (identifier d) (load_all names os) date)
| bk_dir : forall n os, holds_list E O cache d os -> backed E O cache names d (DirD n (identifier d) (load_all names os))
| bk_api : forall a, dc_type d = "api" -> api_ident a = identifier d -> backed E O cache names d (ApiD a).
Lemma loads_backed E O cache names c db : loads_as E O cache names c (inr db) -> backed E O cache names c db.
Proof.
  intros (before & w & reqs & B & H). unfold load_db in H. destruct (seqb_spec (dc_type c) "zip") as [T|_].
  { destruct (zip_load _ _ _ _ _ _ _ _) as [[r w'] rq] eqn:Z. destruct r as [[e|[m date]]|]; cbn [rbind] in H; try discriminate.
    injection H as <- <- <-. apply zip_load_spec in Z as (body & entries & os & F & U & A & ->).
    constructor. apply hl_zip with entries; auto. exists before, body, date, w', rq. auto. }
  destruct (seqb_spec (dc_type c) "api") as [T|_].
  { destruct (new_api_db _ _ _ _ _ _) as [e|a] eqn:A; [discriminate|]. injection H as <- <- <-.
    unfold new_api_db in A. destruct (o_offline O); [discriminate|]. destruct (Z.ltb _ _); [discriminate|].
    destruct (w_parse_uri _ _); [|discriminate]. injection A as <-. constructor; [exact T|reflexivity]. }
  destruct (seqb_spec (dc_type c) "dir") as [T|_]; [|discriminate].
  destruct (dir_load _ _ _ _ _ _) as [e|m] eqn:D; [discriminate|]. injection H as <- <- <-.
  unfold dir_load in D. destruct (negb _); [discriminate|]. destruct (w_parse_uri (e_world E) (dc_url c)) as [u|] eqn:U; [|discriminate].
  set (p := path_join [trim_prefix (u_path u) "/"; dc_wd c]) in *.
  assert (G : forall q, ~ at_path (w_tree (e_world E) p) q NGone).
  { intros q Q. rewrite (visits_gone (w_dec_osv (e_world E)) names _ (ex_intro _ q Q)) in D. discriminate. }
  rewrite (visits_listing (w_dec_osv (e_world E)) names _ G) in D. injection D as <-.
  apply (bk_dir E O cache names c (dc_name c) (map snd (DirDBProofs.listing (w_dec_osv (e_world E)) (path_base p) (w_tree (e_world E) p)))).
  now apply hl_dir.
Qed.

(** ** the answers are determined *)
Lemma checkable_all sem p os : os <> [] -> (forall o, In o os -> checkable sem [o] p) -> checkable sem os p.
Proof.
  intros N H. destruct os as [|o os]; [contradiction|]. destruct (H o (or_introl eq_refl)) as [V P _]. split; auto.
  apply Forall_forall. intros x X. destruct (H x X) as [_ _ W]. now inversion W.
Qed.
Lemma affecting_none S sem names db pkg : db_state names [] db -> exists db', vulnerabilities_affecting S sem db pkg = Ok ([], db').
Proof.
  intros [Dh Dv _]. rewrite affecting_as_loop, Dv. destruct (load_all_spec names []) as (_ & _ & Hb). rewrite Hb. cbn. eauto.
Qed.
Lemma check_fun S sem os n1 n2 : SorterOk S -> forall pkgs db1 db2 rs1 rs2 d1 d2, db_state n1 os db1 -> db_state n2 os db2 ->
  (forall p, In p pkgs -> (forall o, In o os -> checkable sem [o] p) /\ usual (p_eco p) /\ In (p_name p) n1 /\ In (p_name p) n2) ->
  check S sem db1 pkgs = Ok (rs1, d1) -> check S sem db2 pkgs = Ok (rs2, d2) -> Forall2 (Forall2 osv_same) rs1 rs2.
Proof.
  intros HS. induction pkgs as [|p pkgs IH]; intros db1 db2 rs1 rs2 d1 d2 D1 D2 H H1 H2; cbn [check] in H1, H2.
  - injection H1 as <- <-. injection H2 as <- <-. constructor.
  - destruct (vulnerabilities_affecting S sem db1 p) as [[v1 e1]|] eqn:A1; [|discriminate]. cbn [rbind] in H1.
    destruct (vulnerabilities_affecting S sem db2 p) as [[v2 e2]|] eqn:A2; [|discriminate]. cbn [rbind] in H2.
    destruct (check S sem e1 pkgs) as [[r1 f1]|] eqn:C1; [|discriminate]. injection H1 as <- <-.
    destruct (check S sem e2 pkgs) as [[r2 f2]|] eqn:C2; [|discriminate]. injection H2 as <- <-.
    destruct (H p (or_introl eq_refl)) as (Ck & Us & N1 & N2). constructor.
    + destruct os as [|o os].
      { destruct (affecting_none S sem n1 db1 p D1) as (x & X). destruct (affecting_none S sem n2 db2 p D2) as (y & Y).
        rewrite A1 in X. rewrite A2 in Y. injection X as -> _. injection Y as -> _. constructor. }
      assert (Ca : checkable sem (o :: os) p) by (apply checkable_all; [discriminate|exact Ck]).
      destruct Us as [Us|(base & suf & Q & B1 & B2)].
      * destruct (affecting_spec S sem n1 (o :: os) db1 p HS Ca D1 (or_intror N1) Us) as (x & x' & X & _ & R1).
        destruct (affecting_spec S sem n2 (o :: os) db2 p HS Ca D2 (or_intror N2) Us) as (y & y' & Y & _ & R2).
        rewrite A1 in X. rewrite A2 in Y. injection X as <- _. injection Y as <- _. eapply reported_fun; eauto.
      * rewrite (suffixed_never S sem n1 _ db1 p base suf D1 Q B1 B2) in A1. rewrite (suffixed_never S sem n2 _ db2 p base suf D2 Q B1 B2) in A2.
        injection A1 as <- _. injection A2 as <- _. constructor.
    + eapply (IH e1 e2); try eassumption.
      * exact (affecting_frame _ _ _ _ _ _ _ _ HS D1 A1).
      * exact (affecting_frame _ _ _ _ _ _ _ _ HS D2 A2).
      * intros q Q. apply H. now right.
Qed.
Lemma answers_fun E O cache n1 n2 c1 c2 db1 db2 k1 k2 pkgs an1 an2 : SorterOk (e_sort E) -> steady E O cache ->
  dc_type c1 = dc_type c2 -> dc_url c1 = dc_url c2 -> dc_wd c1 = dc_wd c2 -> db_ident db1 = db_ident db2 ->
  backed E O cache n1 c1 db1 -> backed E O cache n2 c2 db2 ->
  (forall p, In p pkgs -> (forall o, may_hold E O cache c1 o -> checkable (e_sem E) [o] p) /\ usual (p_eco p) /\ In (p_name p) n1 /\ In (p_name p) n2) ->
  answers E k1 pkgs db1 an1 -> answers E k2 pkgs db2 an2 -> same_answer an1 an2.
Proof.
  intros HS St Q1 Q2 Q3 Id B1 B2 H A1 A2.
  assert (T : forall os, holds_list E O cache c1 os -> dc_type c1 <> "api") by (intros os [es os' X _ _|u X _]; rewrite X; discriminate).
  assert (T' : forall os, holds_list E O cache c2 os -> dc_type c2 <> "api") by (intros os [es os' X _ _|u X _]; rewrite X; discriminate).
  assert (K : forall os1 os2, holds_list E O cache c1 os1 -> holds_list E O cache c2 os2 -> forall m1 m2 r1 r2 e1 e2,
      history (e_sort E) (e_sem E) (load_all n1 os1) m1 -> history (e_sort E) (e_sem E) (load_all n2 os2) m2 ->
      check (e_sort E) (e_sem E) m1 pkgs = Ok (r1, e1) -> check (e_sort E) (e_sem E) m2 pkgs = Ok (r2, e2) -> Forall2 (Forall2 osv_same) r1 r2).
  { intros os1 os2 L1 L2 m1 m2 r1 r2 e1 e2 Y1 Y2 C1 C2. pose proof (holds_fun _ _ _ _ _ _ _ St Q1 Q2 Q3 L1 L2) as <-.
    apply (history_state _ _ _ _ _ _ HS (db_state_load _ _)) in Y1, Y2. eapply (check_fun _ _ os1 n1 n2 HS pkgs m1 m2); eauto.
    intros p P. destruct (H p P) as (X & X'). split; [|exact X']. intros o I. apply X. eapply holds_may; eauto. }
  assert (Ka : forall a b, db_ident (ApiD a) = db_ident (ApiD b) -> e_api E k1 a pkgs = e_api E k2 b pkgs) by (intros a b Q; apply St; exact Q).
  destruct B1 as [nm os date L|nm os L|a Ta Ia], B2 as [nm' os' date' L'|nm' os' L'|b Tb Ib]; inversion A1; inversion A2; subst; cbn [same_answer];
    try (eapply K; eassumption); try (exfalso; rewrite ?Tb, ?Ta in *; first [now apply (T _ L)|now apply (T' _ L')|congruence]).
  - rewrite (Ka a b Id) in *. match goal with X : _ = Ok (inr ?x), Y : _ = Ok (inr ?y) |- _ => rewrite X in Y; injection Y as -> end.
    apply Forall2_refl. intros x. apply Forall2_refl, osv_same_refl.
  - rewrite (Ka a b Id) in *. congruence.
  - rewrite (Ka a b Id) in *. congruence.
  - exact I.
Qed.

(** ** the same databases, in some order *)
Lemma Permutation_in_iff' {A} (l l' : list A) : Permutation l l' -> forall x, In x l <-> In x l'.
Proof. intros P x. split; apply Permutation_in; [exact P|now symmetry]. Qed.
Lemma match_up {A B} (R : B -> B -> Prop) : forall (x y : list (A * B)), NoDup (map fst x) -> NoDup (map fst y) ->
  (forall k, In k (map fst x) <-> In k (map fst y)) -> (forall k a b, In (k, a) x -> In (k, b) y -> R a b) ->
  exists z, Permutation y z /\ Forall2 (fun p q => fst p = fst q /\ R (snd p) (snd q)) x z.
Proof.
  induction x as [|[k a] x IH]; intros y N1 N2 S H.
  - destruct y as [|[k b] y]; [exists []; split; constructor|]. destruct (proj2 (S k) (or_introl eq_refl)).
  - cbn in N1. inversion N1 as [|? ? X1 X2]; subst.
    assert (I : In k (map fst y)) by (apply S; now left). apply in_map_iff in I as ([k' b] & Q & I). cbn in Q. subst k'.
    apply in_split in I as (y1 & y2 & ->).
    assert (P : Permutation (y1 ++ (k, b) :: y2) ((k, b) :: y1 ++ y2)) by (symmetry; apply Permutation_middle).
    pose proof (Permutation_NoDup (Permutation_map fst P) N2) as N3. cbn in N3. inversion N3 as [|? ? Y1 Y2]; subst.
    destruct (IH (y1 ++ y2)) as (z & Z1 & Z2); auto.
    + intros j. pose proof (S j) as Sj. rewrite (Permutation_in_iff' _ _ (Permutation_map fst P) j) in Sj.
      cbn in Sj. split; intros J.
      * destruct (proj1 Sj (or_intror J)) as [<-|J']; [contradiction|exact J'].
      * destruct (proj2 Sj (or_intror J)) as [<-|J']; [contradiction|exact J'].
    + intros j u v U V. apply (H j); [now right|]. apply (Permutation_in _ (Permutation_sym P)). now right.
    + exists ((k, b) :: z). split; [now rewrite P, Z1|]. constructor; [|exact Z2]. split; [reflexivity|]. cbn.
      apply (H k); [now left|]. apply (Permutation_in _ (Permutation_sym P)). now left.
Qed.

(** ** one check of a run *)
Record view (E : Env) (O : Opts) (fs : string -> fread) (cache : files) (us : list (Lockfile * Config)) (names : list string) (ck : checked)
    (c : Config) (x : list (option (list (list OSV)))) : Prop := mkView {
  vw_in : In (rp_lock (ck_report ck), c) us;
  vw_cfg : ck_cfg ck = cf_path c;
  vw_ign : ck_ignores ck = ignores_of O c;
  vw_raw : ck_raw ck = given x;
  vw_len : List.length x = List.length (ck_dbs ck);
  vw_once : NoDup (ck_dbs ck);
  vw_ids : forall id, In id (ck_dbs ck) <-> exists d, MainSpec.wanted O (rp_lock (ck_report ck)) c d /\ identifier d = id;
  vw_ans : forall id an, In (id, an) (combine (ck_dbs ck) x) -> exists d l' c' db k, uses E O fs l' c' d
    /\ identifier d = id /\ db_ident db = id /\ backed E O cache names d db /\ answers E k (lf_pkgs (rp_lock (ck_report ck))) db an;
  vw_names : forall p, In p (lf_pkgs (rp_lock (ck_report ck))) -> In (p_name p) names;
  vw_uses : forall d, MainSpec.wanted O (rp_lock (ck_report ck)) c d -> uses E O fs (rp_lock (ck_report ck)) c d;
  vw_rows : transpose_all (lf_pkgs (rp_lock (ck_report ck))) (ck_ignores ck) 0 (ck_raw ck) = Ok (rp_pkgs (ck_report ck)) }.
Lemma selects_NoDup {A B} (f : A -> B) (P : A -> Prop) l s : selects P l s -> NoDup (map f l) -> NoDup (map f s).
Proof.
  induction 1 as [|x l s p H IH|x l s p H IH]; cbn; intros N; [constructor| |]; inversion N as [|? ? N1 N2]; subst; auto.
  constructor; auto. intros X. apply N1. apply in_map_iff in X as (y & <- & Y). apply in_map. now apply (selects_in _ _ _ _ H).
Qed.
Lemma in_combine_map {A B} (f : A -> string) (l : list A) (x : list B) (R : A -> B -> Prop) : Forall2 R l x -> forall k b, In (k, b) (combine (map f l) x) ->
  exists a, In a l /\ f a = k /\ R a b.
Proof.
  induction 1 as [|a b l x H F IH]; cbn; intros k b' []; [injection H0 as <- <-; eauto|]. destruct (IH _ _ H0) as (a' & X1 & X2). eauto.
Qed.
Lemma session_view E O fs cache l0 e mode rs names ds tr : inputs E O l0 e -> session E O fs cache mode (map as_arg l0) rs names ds tr ->
  failures tr = [] -> o_no_config O = false -> (forall ck, In ck (checks tr) -> exists c x, view E O fs cache (usables rs) names ck c x)
  /\ (forall l c, In (l, c) (usables rs) -> exists ck x, In ck (checks tr) /\ rp_lock (ck_report ck) = l /\ view E O fs cache (usables rs) names ck c x).
Proof.
  intros HI [S1 S2 S3 S4 S5 S6 S7 S8] HF NC.
  assert (NS : ~ shared mode).
  { intros Q. unfold shared in Q. rewrite Q in S1. inversion S1 as [Q1|Q1 Q2|c errs Q1 Q2 Q3]; [congruence|].
    apply load_config_good in Q3 as (raw & _ & P & _). subst c. cbn in P. symmetry in P. now apply PathFacts.clean_nonempty in P. }
  assert (Main : forall l c ck, In (l, c) (usables rs) -> (exists k c', in_effect O (usables rs) mode l c c' /\ check_of E O k ds l c' ck) ->
    rp_lock (ck_report ck) = l /\ exists x, view E O fs cache (usables rs) names ck c x).
  { intros l c ck UI (k & c' & (Ef1 & Ef2 & Ef3) & Co). destruct Co as [used ans rows Us An Tr]. cbn. split; [reflexivity|]. exists ans.
    destruct (MainProofs.loaded_idents _ _ _ _ _ _ _ S6 S5) as (ND & _ & Ids).
    constructor; cbn [ck_cfg ck_dbs ck_ignores ck_raw ck_report rp_lock rp_pkgs]; auto.
    - unfold ignores_of. now rewrite Ef2.
    - rewrite map_length. clear - An. induction An; cbn; congruence.
    - eapply selects_NoDup; eauto.
    - intros id. split.
      + intros J. apply in_map_iff in J as (db & <- & J). apply (selects_in _ _ _ _ Us) in J as [J1 J2]. apply Ef3 in J2 as (d & A & Q).
        exists d. split; [|exact Q]. inversion A; subst; auto; contradiction.
      + intros (d & W & Q).
        assert (A : asks O (usables rs) mode l c d) by (now apply as_own).
        assert (J : In id (map db_ident ds)). { apply (proj2 (Ids id)). split; [apply S4; eauto 6|]. rewrite HF. intros []. }
        apply in_map_iff in J as (db & Jd & J). apply in_map_iff. exists db. split; [exact Jd|]. apply (selects_in _ _ _ _ Us). split; [exact J|].
        rewrite Jd. apply Ef3. eauto.
    - intros id an J. destruct (in_combine_map db_ident used ans _ An id an J) as (db & J1 & J2 & J3).
      apply (selects_in _ _ _ _ Us) in J1 as [J1 _]. destruct (proj2 (loaded_in _ _ _ _ _ _ _ S6) db J1) as (d & D1 & D2).
      destruct (S8 d D1) as (l' & c2 & U1 & U2). exists d, l', c2, db, k. split; [exists l0, e, mode, rs; auto|].
      destruct (loads_content _ _ _ _ _ _ D2) as [Q _]. split; [congruence|]. split; [exact J2|]. split; [now apply loads_backed|exact J3].
    - intros p P. eapply S3; eauto.
    - intros d W. exists l0, e, mode, rs. split; [exact HI|]. split; [exact S1|]. split; [exact S2|]. split; [exact UI|]. now apply as_own. }
  split.
  - intros ck K. destruct (Forall2_right _ _ _ _ S7 K) as ([l c] & UI & X). destruct (Main l c ck UI X) as [Q (x & V)]. eauto.
  - intros l c UI. destruct (Forall2_left _ _ _ _ S7 UI) as (ck & K & X). destruct (Main l c ck UI X) as [Q (x & V)]. exists ck, x. auto.
Qed.

(** ** a lockfile has its config *)
Lemma parsed_path E O p l : parse_lockfile E O p = Ok (l, None) -> lf_path l = snd (split_parse_as p).
Proof.
  unfold parse_lockfile. destruct (split_parse_as p) as [pa path]. cbn [snd]. destruct (seqb pa parse_as_csv_row).
  { unfold from_csv_rows. destruct (from_csv _ _) as [ps er]. intros H. injection H as <- _. reflexivity. }
  destruct (seqb pa parse_as_csv_file).
  { unfold from_csv_file. destruct (e_csv E path) as [t|]; [|discriminate]. destruct (from_csv _ _) as [ps er]. intros H. injection H as <- _. reflexivity. }
  unfold Lockfile.parse. destruct (find_parser path pa) as [[f|] as_]; [|discriminate]. destruct (e_impl E f path) as [[ps er]|]; [|discriminate].
  cbn. intros H. injection H as <- _. reflexivity.
Qed.
Lemma usables_in rs l c : In (l, c) (usables rs) <-> In (Usable l c) rs.
Proof.
  unfold usables. rewrite in_flat_map. split.
  - intros ([|l' c'] & I & X); [destruct X|]. destruct X as [X|[]]. now injection X as <- <-.
  - intros I. exists (Usable l c). split; [exact I|now left].
Qed.
Lemma usable_config E O fs mode ps rs l c : Forall2 (reads E O fs mode) ps rs -> In (l, c) (usables rs) -> config_for E fs (lf_path l) mode (Some c).
Proof.
  intros F I. apply usables_in in I. destruct (Forall2_right _ _ _ _ F I) as (p & _ & R). inversion R; subst.
  match goal with P : parse_lockfile _ _ _ = _ |- _ => now rewrite (parsed_path _ _ _ _ P) end.
Qed.

Lemma combine_fst {A B} (l : list A) : forall (x : list B), List.length x = List.length l -> map fst (combine l x) = l.
Proof. induction l as [|a l IH]; intros [|b x] H; try discriminate; [reflexivity|]. cbn. now rewrite IH by (injection H; auto). Qed.

(** ** two runs *)
Section TwoRuns.
Variables (E : Env) (O : Opts) (fs : string -> fread) (cache : files).
Hypothesis HS : SorterOk (e_sort E).
Hypothesis HO : steady E O cache.
Hypothesis NC : o_no_config O = false.

Lemma two_views a b us1 n1 ck1 c1 x1 us2 n2 ck2 c2 x2 :
  view E (with_args O a) fs cache us1 n1 ck1 c1 x1 -> view E (with_args O b) fs cache us2 n2 ck2 c2 x2 ->
  rp_lock (ck_report ck1) = rp_lock (ck_report ck2) -> c1 = c2 ->
  distinct_names E (with_args O a) fs -> distinct_names E (with_args O b) fs ->
  comparable E (with_args O a) fs cache -> usual_ecosystems E (with_args O a) fs ->
  (forall k u v, In (k, u) (combine (ck_dbs ck1) x1) -> In (k, v) (combine (ck_dbs ck2) x2) -> same_answer u v) /\ same_checks ck1 ck2.
Proof.
  intros [V1 V2 V3 V4 V5 V6 V7 V8 V9 Vu V10] [W1 W2 W3 W4 W5 W6 W7 W8 W9 Wu W10] Q <- D1 D2 Cm Us.
  assert (K : forall k u v, In (k, u) (combine (ck_dbs ck1) x1) -> In (k, v) (combine (ck_dbs ck2) x2) -> same_answer u v).
  { intros k u v I1 I2.
    destruct (V8 _ _ I1) as (d1 & l1 & e1 & db1 & k1 & U1 & Id1 & J1 & B1 & A1).
    destruct (W8 _ _ I2) as (d2 & l2 & e2 & db2 & k2 & U2 & Id2 & J2 & B2 & A2).
    assert (T : dc_type d1 = dc_type d2 /\ dc_url d1 = dc_url d2 /\ dc_wd d1 = dc_wd d2).
    { apply identifier_inj; try congruence; try (eapply D1; eassumption); try (eapply D2; eassumption).
      - destruct (uses_type _ _ _ _ _ _ U1) as [->|[->| ->]]; reflexivity.
      - destruct (uses_type _ _ _ _ _ _ U2) as [->|[->| ->]]; reflexivity. }
    destruct T as (T1 & T2 & T3).
    assert (X1 : backed E O cache n1 d1 db1) by (destruct B1; constructor; auto; now apply (holds_args E O a)).
    assert (X2 : backed E O cache n2 d2 db2) by (destruct B2; constructor; auto; now apply (holds_args E O b)).
    rewrite <- Q in A2. eapply (answers_fun E O cache n1 n2 d1 d2 db1 db2); eauto; [congruence|].
    assert (Y : In k (ck_dbs ck1)) by (eapply in_combine_l; eauto). apply V7 in Y as (d0 & Wd & Id0). pose proof (Vu d0 Wd) as U0.
    destruct (same_identifier _ _ _ _ _ _ _ _ _ D1 U1 U0) as (Y1 & Y2 & Y3); [congruence|].
    intros p P. split; [intros o M; eapply Cm; eauto; apply (may_args E O a), (may_same _ _ _ _ _ _ Y1 Y2 Y3 M)|]. split; [eapply Us; eauto|]. split; [now apply V9|]. apply W9. now rewrite <- Q. }
  split; [exact K|]. split; [congruence|]. split; [rewrite V3, W3; reflexivity|]. split; [exact Q|].
  destruct (match_up same_answer (combine (ck_dbs ck1) x1) (combine (ck_dbs ck2) x2)) as (z & Z1 & Z2).
  - now rewrite combine_fst.
  - now rewrite combine_fst.
  - intros k. rewrite !combine_fst by assumption. rewrite V7, W7, <- Q. reflexivity.
  - exact K.
  - exists x1, x2, z. auto 8.
Qed.
End TwoRuns.

(** ** reports from the same answers *)
Definition same3 := Forall2 (Forall2 (Forall2 osv_same)).
Lemma column_same i all1 all2 : same3 all1 all2 -> forall v1 v2, column i all1 = Ok v1 -> column i all2 = Ok v2 -> Forall2 osv_same v1 v2.
Proof.
  induction 1 as [|r1 r2 l1 l2 R F IH]; intros v1 v2 H1 H2; cbn [column] in H1, H2; [injection H1 as <-; injection H2 as <-; constructor|].
  destruct (nth_error r1 i) as [u1|] eqn:N1; [|discriminate]. destruct (nth_error r2 i) as [u2|] eqn:N2; [|discriminate].
  destruct (column i l1) as [w1|]; [|discriminate]. destruct (column i l2) as [w2|]; [|discriminate]. injection H1 as <-. injection H2 as <-.
  apply Forall2_app; [|now apply IH]. clear - R N1 N2. revert i N1 N2. induction R; intros [|i] N1 N2; try discriminate; cbn in *; [congruence|eauto].
Qed.
Lemma includes_alike k k' o v : Forall2 osv_same k k' -> osv_same o v -> includes k o = includes k' v.
Proof.
  intros F H. assert (X : includes k' v = true <-> includes k o = true) by (rewrite (includes_same k k' o v F H), includes_iff; reflexivity).
  destruct (includes k o), (includes k' v); tauto || (destruct X as [X1 X2]; first [now rewrite X1 by reflexivity|now rewrite X2 by reflexivity]).
Qed.
Lemma divide_same ignores v1 v2 : Forall2 osv_same v1 v2 -> forall a1 b1 a2 b2, Forall2 osv_same a1 a2 -> Forall2 osv_same b1 b2 ->
  Forall2 osv_same (fst (fold_left (transpose_step ignores) v1 (a1, b1))) (fst (fold_left (transpose_step ignores) v2 (a2, b2)))
  /\ Forall2 osv_same (snd (fold_left (transpose_step ignores) v1 (a1, b1))) (snd (fold_left (transpose_step ignores) v2 (a2, b2))).
Proof.
  induction 1 as [|x y v1 v2 H F IH]; intros a1 b1 a2 b2 Ha Hb; [auto|]. cbn [fold_left]. unfold transpose_step at 2 4 6 8.
  rewrite (includes_alike a1 a2 x y Ha H), (includes_alike b1 b2 x y Hb H). replace (o_id y) with (o_id x) by apply H.
  destruct (_ || _); [now apply IH|]. destruct (mem _ _); apply IH; auto; apply Forall2_app; auto.
Qed.
Lemma rows_same ignores pkgs all1 all2 : same3 all1 all2 -> forall i r1 r2, transpose_all pkgs ignores i all1 = Ok r1 -> transpose_all pkgs ignores i all2 = Ok r2 ->
  Forall2 same_row r1 r2.
Proof.
  intros S. induction pkgs as [|p pkgs IH]; intros i r1 r2 H1 H2; cbn [transpose_all] in H1, H2; [injection H1 as <-; injection H2 as <-; constructor|].
  unfold transpose in H1, H2. destruct (column i all1) as [v1|] eqn:C1; [|discriminate]. destruct (column i all2) as [v2|] eqn:C2; [|discriminate].
  cbn [rbind] in H1, H2. pose proof (column_same i all1 all2 S v1 v2 C1 C2) as V.
  destruct (divide_same ignores v1 v2 V [] [] [] [] (Forall2_nil _) (Forall2_nil _)) as [D1 D2].
  destruct (fold_left (transpose_step ignores) v1 ([], [])) as [a1 b1]. destruct (fold_left (transpose_step ignores) v2 ([], [])) as [a2 b2]. cbn [rbind fst snd] in *.
  destruct (transpose_all pkgs ignores (i + 1) all1) as [x1|] eqn:T1; [|discriminate]. destruct (transpose_all pkgs ignores (i + 1) all2) as [x2|] eqn:T2; [|discriminate].
  injection H1 as <-. injection H2 as <-. constructor; [repeat split; assumption|]. eapply IH; eauto.
Qed.
Lemma given_same x1 x2 : Forall2 same_answer x1 x2 -> same3 (given x1) (given x2).
Proof. induction 1 as [|[a|] [b|] l l' H F IH]; cbn in *; try contradiction; [constructor|constructor; auto|exact IH]. Qed.
Lemma aligned {A B} (R : B -> B -> Prop) : forall (ks : list A) x y, List.length x = List.length ks -> List.length y = List.length ks ->
  (forall k u v, In (k, u) (combine ks x) -> In (k, v) (combine ks y) -> R u v) -> Forall2 R x y.
Proof.
  induction ks as [|k ks IH]; intros [|u x] [|v y] L1 L2 H; try discriminate; constructor.
  - apply (H k); now left.
  - apply IH; [injection L1; auto|injection L2; auto|]. intros j a b I1 I2. apply (H j); now right.
Qed.

(** ** reports from the same answers in another order *)
Lemma found_covers ks1 ks2 (x1 x2 : list (option (list (list OSV)))) i v :
  List.length x1 = List.length (ks1 : list string) -> List.length x2 = List.length ks2 -> incl ks1 ks2 ->
  (forall k u v, In (k, u) (combine ks1 x1) -> In (k, v) (combine ks2 x2) -> same_answer u v) ->
  In v (found (given x1) i) -> exists w, In w (found (given x2) i) /\ osv_same v w.
Proof.
  intros L1 L2 I H V. unfold found in V. apply in_concat in V as (vs & V1 & V2). apply in_map_iff in V1 as (r & <- & V1). apply given_in in V1.
  destruct (In_nth_error _ _ V1) as (j & J).
  assert (K : exists k, In (k, Some r) (combine ks1 x1)).
  { clear - L1 V1. revert x1 L1 V1. induction ks1 as [|k ks1 IH]; intros [|a x1] L1 V1; try discriminate; [destruct V1|].
    destruct V1 as [->|V1]; [exists k; now left|]. destruct (IH x1) as (k' & K); auto. exists k'. now right. }
  destruct K as (k & K). assert (K2 : In k ks2) by (apply I; eapply in_combine_l; eauto).
  assert (K3 : exists b, In (k, b) (combine ks2 x2)).
  { clear - L2 K2. revert x2 L2. induction ks2 as [|k' ks2 IH]; intros [|a x2] L2; try discriminate; [destruct K2|].
    destruct K2 as [->|K2]; [exists a; now left|]. destruct (IH K2 x2) as (b & B); auto. exists b. now right. }
  destruct K3 as (b & K3). pose proof (H k (Some r) b K K3) as Sa. destruct b as [r'|]; [|destruct Sa]. cbn in Sa.
  assert (F : Forall2 osv_same (nth i r []) (nth i r' [])).
  { clear - Sa. revert i. induction Sa; intros [|i]; cbn; auto. }
  destruct (Forall2_left _ _ _ _ F V2) as (w & W1 & W2). exists w. split; [|exact W2]. unfold found. apply in_concat. exists (nth i r' []).
  split; [|exact W1]. apply in_map_iff. exists r'. split; [reflexivity|]. apply given_in. eapply in_combine_r; eauto.
Qed.
Lemma listed_in ignores k row v : divided ignores k row -> (In v (listed row) <-> In v k).
Proof.
  intros [D1 D2]. unfold listed. rewrite in_app_iff, (selects_in _ _ _ _ D1), (selects_in _ _ _ _ D2).
  destruct (in_dec string_dec (o_id v) ignores); tauto.
Qed.
Lemma rows_like ignores pkgs all1 all2 r1 r2 :
  (forall i v, In v (found all1 i) -> exists w, In w (found all2 i) /\ osv_same v w) ->
  (forall i v, In v (found all2 i) -> exists w, In w (found all1 i) /\ osv_same v w) ->
  transpose_all pkgs ignores 0 all1 = Ok r1 -> transpose_all pkgs ignores 0 all2 = Ok r2 -> Forall2 like_row r1 r2.
Proof.
  intros H12 H21 T1 T2. destruct (rows_divided _ _ _ _ _ T1) as [P1 R1]. destruct (rows_divided _ _ _ _ _ T2) as [P2 R2].
  assert (Cov : forall all all' j ra rb, (forall i v, In v (found all i) -> exists w, In w (found all' i) /\ osv_same v w) ->
    (exists k, dedup_of (found all (0 + j)) k /\ divided ignores k ra) -> (exists k, dedup_of (found all' (0 + j)) k /\ divided ignores k rb) -> covered ra rb).
  { intros all all' j ra rb H (k1 & Da & Va) (k2 & Db & Vb) v V. apply (listed_in _ _ _ _ Va) in V.
    destruct (dedup_props _ _ Da) as (I1 & _ & _). apply I1 in V. destruct (H _ _ V) as (w & W1 & W2).
    destruct (dedup_props _ _ Db) as (_ & _ & C2). destruct (C2 w W1) as (g & G1 & [->|G2]).
    - exists w. split; [now apply (listed_in _ _ _ _ Vb)|now left].
    - exists g. split; [now apply (listed_in _ _ _ _ Vb)|]. right. eapply related_same; [apply osv_same_refl|apply osv_same_sym, W2|exact G2]. }
  assert (G : forall j ra rb, nth_error r1 j = Some ra -> nth_error r2 j = Some rb -> like_row ra rb).
  { intros j ra rb N1 N2. split; [|split; [eapply (Cov all1 all2 j)|eapply (Cov all2 all1 j)]; eauto].
    apply (map_nth_error pv_pkg) in N1, N2. rewrite P1 in N1. rewrite P2 in N2. congruence. }
  assert (L : List.length r1 = List.length r2) by (rewrite <- (map_length pv_pkg r1), <- (map_length pv_pkg r2); congruence).
  clear - G L. revert r2 G L. induction r1 as [|a r1 IH]; intros [|b r2] G L; try discriminate; constructor; [now apply (G 0)|].
  apply IH; [|now injection L]. intros j. apply (G (S j)).
Qed.

(** ** runs *)
Section Runs.
Variables (E : Env) (O : Opts).
Hypothesis HS : SorterOk (e_sort E).
Hypothesis HI : IterOk (e_iter E).
Hypothesis HE : EntriesOk E.

(** the session of a run that checked something *)
Lemma run_session fs cache code s' : checking O -> run E O (start fs cache) = (Ok code, s') -> forall ck, In ck (checks (s_trace s')) ->
  exists l e mode rs names ds, inputs E O l e /\ l <> [] /\ session E O fs cache mode (map as_arg l) rs names ds (s_trace s').
Proof.
  intros HC H ck K. pose proof (run_outcome E O HS HI HE fs cache code s' HC H) as Out.
  destruct Out as [N I M|e N I D M|l e er N I Nl N1 N2 L D M|l e mode rs names ds code N I Nl Ss Ex Mi].
  - destruct D as [Q _] || destruct I as [Q _]. rewrite Q in K. destruct K.
  - destruct D as [Q _]. rewrite Q in K. destruct K.
  - destruct D as [Q _]. rewrite Q in K. destruct K.
  - exists l, e, mode, rs, names, ds. auto.
Qed.
End Runs.

Section Two.
Variables (E : Env) (O : Opts) (fs : string -> fread) (cache : files) (a b : list string).
Hypothesis HS : SorterOk (e_sort E).
Hypothesis HI : IterOk (e_iter E).
Hypothesis HE : EntriesOk E.
Hypothesis St : steady E O cache.
Hypothesis NC : o_no_config O = false.
Hypothesis CH : checking O.
Hypothesis Da : distinct_names E (with_args O a) fs.
Hypothesis Db : distinct_names E (with_args O b) fs.
Hypothesis Cm : comparable E (with_args O a) fs cache.
Hypothesis Us : usual_ecosystems E (with_args O a) fs.

Lemma views_agree us1 n1 ck1 c1 x1 us2 n2 ck2 c2 x2 :
  view E (with_args O a) fs cache us1 n1 ck1 c1 x1 -> view E (with_args O b) fs cache us2 n2 ck2 c2 x2 ->
  rp_lock (ck_report ck1) = rp_lock (ck_report ck2) -> c1 = c2 ->
  same_checks ck1 ck2 /\ Forall2 like_row (rp_pkgs (ck_report ck1)) (rp_pkgs (ck_report ck2))
  /\ (ck_dbs ck1 = ck_dbs ck2 -> Forall2 same_row (rp_pkgs (ck_report ck1)) (rp_pkgs (ck_report ck2))).
Proof.
  intros V W Q Qc. destruct (two_views E O fs cache HS St a b _ _ _ _ _ _ _ _ _ _ V W Q Qc Da Db Cm Us) as [K S].
  split; [exact S|]. destruct V as [V1 V2 V3 V4 V5 V6 V7 V8 V9 Vu V10], W as [W1 W2 W3 W4 W5 W6 W7 W8 W9 Wu W10].
  assert (Qi : ck_ignores ck1 = ck_ignores ck2) by (rewrite V3, W3, Qc; reflexivity).
  assert (Ids : forall id, In id (ck_dbs ck1) <-> In id (ck_dbs ck2)) by (intros id; rewrite V7, W7, <- Q, Qc; reflexivity).
  rewrite <- Q, <- Qi in W10. split.
  - eapply rows_like; [| |exact V10|exact W10]; intros i v; rewrite V4, W4.
    + apply (found_covers (ck_dbs ck1) (ck_dbs ck2)); auto. intros id; apply Ids.
    + apply (found_covers (ck_dbs ck2) (ck_dbs ck1)); auto; [intros id; apply Ids|]. intros k u w I1 I2. pose proof (K k w u I2 I1) as X.
      destruct u, w; cbn in *; auto. clear - X. revert X. generalize dependent l. intros l X.
      induction X as [|p q r1 r2 H F IH]; constructor; auto. clear - H. induction H; constructor; auto using osv_same_sym.
  - intros Qd. eapply rows_same; [|exact V10|exact W10]. rewrite V4, W4. apply given_same. apply (aligned same_answer (ck_dbs ck1)); auto; [congruence|].
    intros k u v I1 I2. rewrite Qd in I2. eapply K; eauto.
Qed.

Theorem run_among code1 s1 code2 s2 : run E (with_args O a) (start fs cache) = (Ok code1, s1) -> run E (with_args O b) (start fs cache) = (Ok code2, s2) ->
  failures (s_trace s1) = [] -> failures (s_trace s2) = [] ->
  forall ck1 ck2, In ck1 (checks (s_trace s1)) -> In ck2 (checks (s_trace s2)) -> rp_lock (ck_report ck1) = rp_lock (ck_report ck2) ->
  same_checks ck1 ck2 /\ Forall2 like_row (rp_pkgs (ck_report ck1)) (rp_pkgs (ck_report ck2))
  /\ (ck_dbs ck1 = ck_dbs ck2 -> Forall2 same_row (rp_pkgs (ck_report ck1)) (rp_pkgs (ck_report ck2))).
Proof.
  intros R1 R2 F1 F2 ck1 ck2 K1 K2 Q.
  destruct (run_session E (with_args O a) HS HI HE fs cache code1 s1 CH R1 ck1 K1) as (l1 & e1 & m1 & rs1 & n1 & d1 & I1 & N1 & S1).
  destruct (run_session E (with_args O b) HS HI HE fs cache code2 s2 CH R2 ck2 K2) as (l2 & e2 & m2 & rs2 & n2 & d2 & I2 & N2 & S2).
  destruct (proj1 (session_view _ _ _ _ _ _ _ _ _ _ _ I1 S1 F1 NC) ck1 K1) as (c1 & x1 & V1).
  destruct (proj1 (session_view _ _ _ _ _ _ _ _ _ _ _ I2 S2 F2 NC) ck2 K2) as (c2 & x2 & V2).
  eapply views_agree; [exact V1|exact V2|exact Q|].
  assert (M : m1 = m2) by (eapply (mode_unique E O fs); [apply (mode_args E O a)|apply (mode_args E O b)]; eapply ss_mode; eauto).
  pose proof (usable_config _ _ _ _ _ _ _ _ (ss_reads _ _ _ _ _ _ _ _ _ _ S1) (vw_in _ _ _ _ _ _ _ _ _ V1)) as C1.
  pose proof (usable_config _ _ _ _ _ _ _ _ (ss_reads _ _ _ _ _ _ _ _ _ _ S2) (vw_in _ _ _ _ _ _ _ _ _ V2)) as C2.
  rewrite <- Q, <- M in C2. pose proof (config_unique _ _ _ _ _ _ C1 C2) as X. now injection X.
Qed.
End Two.
Lemma like_flawed a b : same_checks a b -> Forall2 like_row (rp_pkgs (ck_report a)) (rp_pkgs (ck_report b)) -> (forall row, In row (rp_pkgs (ck_report a)) -> pv_ignored row = []) ->
  (forall row, In row (rp_pkgs (ck_report b)) -> pv_ignored row = []) -> (flawed a <-> flawed b).
Proof.
  intros _ F Ga Gb. unfold flawed, advisories.
  assert (X : forall row, listed row = [] <-> pv_vulns row = [] /\ pv_ignored row = []).
  { intros row. unfold listed. split; [apply app_eq_nil|]. intros [-> ->]. reflexivity. }
  revert F Ga Gb. generalize (rp_pkgs (ck_report a)) (rp_pkgs (ck_report b)). intros r1 r2. induction 1 as [|x y r1 r2 (Q & C1 & C2) F IH]; intros Ga Gb; [reflexivity|].
  cbn [map concat]. assert (Y : pv_vulns x = [] <-> pv_vulns y = []).
  { pose proof (X x) as Xx. pose proof (X y) as Xy. rewrite (Ga x (or_introl eq_refl)) in Xx. rewrite (Gb y (or_introl eq_refl)) in Xy.
    assert (Z : listed x = [] <-> listed y = []).
    { split; intros N.
      - destruct (listed y) as [|v l] eqn:Ly; [reflexivity|]. destruct (C2 v) as (w & W & _); [rewrite Ly; now left|]. rewrite N in W. destruct W.
      - destruct (listed x) as [|v l] eqn:Lx; [reflexivity|]. destruct (C1 v) as (w & W & _); [rewrite Lx; now left|]. rewrite N in W. destruct W. }
    tauto. }
  assert (IH' : concat (map pv_vulns r1) <> [] <-> concat (map pv_vulns r2) <> []) by (apply IH; intros row R; [apply Ga|apply Gb]; now right).
  split; intros N M; apply app_eq_nil in M as [M1 M2].
  - apply N. rewrite (proj2 Y M1). cbn. destruct (concat (map pv_vulns r1)) eqn:Z; [reflexivity|]. exfalso. now apply (proj1 IH').
  - apply N. rewrite (proj1 Y M1). cbn. destruct (concat (map pv_vulns r2)) eqn:Z; [reflexivity|]. exfalso. now apply (proj2 IH').
Qed.
Lemma no_ignored E O fs cache us names ck c x : view E O fs cache us names ck c x -> ck_ignores ck = [] ->
  forall row, In row (rp_pkgs (ck_report ck)) -> pv_ignored row = [].
Proof.
  intros V Q row R. pose proof (vw_rows _ _ _ _ _ _ _ _ _ V) as T. rewrite Q in T. destruct (rows_divided _ _ _ _ _ T) as [_ X].
  destruct (In_nth_error _ _ R) as (j & J). destruct (X j row J) as (k & _ & [_ D]). destruct (pv_ignored row) as [|v l]; [reflexivity|].
  assert (Y : In v (v :: l)) by now left. apply (selects_in _ _ _ _ D) in Y as [_ []].
Qed.

(** ** paths together and apart *)
Lemma finds_all_app E g a : forall l1 e1, finds_all E g a l1 e1 -> forall b l2 e2, finds_all E g b l2 e2 -> finds_all E g (a ++ b) (l1 ++ l2) (e1 || e2).
Proof.
  induction 1 as [|arg args parser path pa l e rest er M P F A IH]; intros b l2 e2 B; [exact B|].
  cbn [app]. rewrite <- app_assoc, <- orb_assoc. eapply fa_arg; eauto.
Qed.
Lemma finds_all_parsers E g a l e : finds_all E g a l e -> has_char ":" g = false -> g <> "csv-row" -> (forall x, In x a -> has_prefix x "csv-row:" = false) ->
  forall q, In q l -> has_char ":" (fst q) = false /\ fst q <> "csv-row".
Proof.
  induction 1 as [|arg args parser path pa l e rest er M P F A IH]; intros G1 G2 H q I; [destruct I|].
  apply in_app_or in I as [I|I]; [|apply IH; auto; intros x X; apply H; now right].
  apply in_map_iff in I as (y & <- & _). cbn [fst]. subst pa. destruct (seqb_spec parser "") as [Q|Q]; [auto|].
  destruct M as [(_ & M & _)|[M1 M2]]; [contradiction|]. split; [exact M1|]. intros ->.
  pose proof (H arg (or_introl eq_refl)) as X. rewrite M2 in X. cbn in X. discriminate X.
Qed.
Lemma parse_args E O a b q : has_char ":" (fst q) = false -> fst q <> "csv-row" ->
  parse_lockfile E (with_args O a) (as_arg q) = parse_lockfile E (with_args O b) (as_arg q).
Proof.
  intros H1 H2. unfold parse_lockfile. assert (Q : split_parse_as (as_arg q) = q).
  { destruct q as [u v]. apply (split_means (as_arg (u, v)) u v). right. cbn in H1. split; [exact H1|reflexivity]. }
  rewrite Q. destruct q as [u v]. cbn [fst] in *. destruct (seqb_spec u parse_as_csv_row) as [X|_]; [contradiction|]. reflexivity.
Qed.
Lemma reads_args E O a b fs m q r : has_char ":" (fst q) = false -> fst q <> "csv-row" ->
  reads E (with_args O a) fs m (as_arg q) r -> reads E (with_args O b) fs m (as_arg q) r.
Proof.
  intros H1 H2 R. pose proof (parse_args E O a b q H1 H2) as P. destruct R as [C|c l e C L|c l C L].
  - now apply rd_config.
  - apply rd_parse with c l e; [exact C|congruence].
  - apply rd_ok; [exact C|congruence].
Qed.
Lemma all_reads_args E O a b fs m l : (forall q, In q l -> has_char ":" (fst q) = false /\ fst q <> "csv-row") -> forall rs,
  Forall2 (reads E (with_args O a) fs m) (map as_arg l) rs -> Forall2 (reads E (with_args O b) fs m) (map as_arg l) rs.
Proof.
  induction l as [|q l IH]; intros H rs F; cbn in F |- *; inversion F; subst; constructor.
  - destruct (H q (or_introl eq_refl)). now apply reads_args with a.
  - apply IH; auto. intros x X. apply H. now right.
Qed.
Lemma asks_own O a b us us' m l c d : ~ shared m -> asks (with_args O a) us m l c d -> asks (with_args O b) us' m l c d.
Proof. intros N H. inversion H; subst; try contradiction. now apply as_own. Qed.

Section Union.
Variables (E : Env) (O : Opts) (fs : string -> fread) (cache : files).
Hypothesis HS : SorterOk (e_sort E).
Hypothesis HI : IterOk (e_iter E).
Hypothesis HE : EntriesOk E.
Hypothesis St : steady E O cache.
Hypothesis NC : o_no_config O = false.
Hypothesis CH : checking O.
Hypothesis NR : o_parse_as O <> "csv-row".

Lemma known_colon g : known_as g -> has_char ":" g = false.
Proof.
  intros [->|[->|[->|H]]]; try reflexivity. assert (F : Forall (fun s => has_char ":" s = false) supported) by (vm_compute; repeat constructor).
  rewrite Forall_forall in F. now apply F.
Qed.
(** a run that exits 0 or 1 *)
Lemma fine_run args code s' : run E (with_args O args) (start fs cache) = (Ok code, s') -> code = 0%Z \/ code = 1%Z ->
  exists l e mode rs names ds, known_as (o_parse_as O) /\ finds_all E (o_parse_as O) args l e /\ ~ shared mode /\ mode_of E O fs mode
    /\ session E (with_args O args) fs cache mode (map as_arg l) rs names ds (s_trace s')
    /\ failures (s_trace s') = [] /\ (code = 1%Z <-> Exists flawed (checks (s_trace s'))).
Proof.
  intros H Hc. pose proof (run_outcome E (with_args O args) HS HI HE fs cache code s' CH H) as Out.
  destruct Out as [N I M|e N I D M|l e er N I Nl N1 N2 L D M|l e mode rs names ds code N I Nl Ss Ex Mi].
  - destruct Hc; discriminate.
  - destruct (negb e && _); destruct Hc; discriminate.
  - destruct Hc; discriminate.
  - exists l, e, mode, rs, names, ds. split; [exact N|]. split; [inversion I; subst; [contradiction|assumption]|].
    assert (Md : mode_of E O fs mode) by (eapply mode_args, ss_mode; eauto).
    split. { intros Q. unfold shared in Q. rewrite Q in Md. inversion Md as [Q1|Q1 Q2|c errs Q1 Q2 Q3]; [congruence|].
      apply load_config_good in Q3 as (raw & _ & P & _). subst c. cbn in P. symmetry in P. now apply PathFacts.clean_nonempty in P. }
    split; [exact Md|]. split; [exact Ss|].
    destruct Ex as [X|X1 X2 X3|X1 X2 X3 X4|X1 X2 X3 X4]; try (destruct Hc; discriminate); (split; [exact X2|]); split; intros; try discriminate; try reflexivity; auto; contradiction.
Qed.

(** the lockfiles of one run are among those of the other *)
Lemma part_agrees a ab l1 e1 m rs1 n1 d1 tr1 l3 e3 rs3 n3 d3 tr3 : ~ shared m ->
  inputs E (with_args O a) l1 e1 -> session E (with_args O a) fs cache m (map as_arg l1) rs1 n1 d1 tr1 -> failures tr1 = [] ->
  inputs E (with_args O ab) l3 e3 -> session E (with_args O ab) fs cache m (map as_arg l3) rs3 n3 d3 tr3 -> failures tr3 = [] ->
  incl (usables rs1) (usables rs3) ->
  distinct_names E (with_args O ab) fs -> comparable E (with_args O ab) fs cache -> usual_ecosystems E (with_args O ab) fs ->
  (forall ck, In ck (checks tr3) -> ck_ignores ck = []) ->
  (forall ck1, In ck1 (checks tr1) -> exists ck3, In ck3 (checks tr3) /\ (flawed ck1 <-> flawed ck3))
  /\ (forall ck3 c x, In ck3 (checks tr3) -> view E (with_args O ab) fs cache (usables rs3) n3 ck3 c x ->
        In (rp_lock (ck_report ck3), c) (usables rs1) -> exists ck1, In ck1 (checks tr1) /\ (flawed ck1 <-> flawed ck3)).
Proof.
  intros NS I1 S1 F1 I3 S3 F3 Inc Dn Cm Us Ig.
  assert (Ua : forall l c d, uses E (with_args O a) fs l c d -> uses E (with_args O ab) fs l c d).
  { intros l c d U. destruct (uses_in _ _ _ _ _ _ _ _ _ _ I1 (ss_mode _ _ _ _ _ _ _ _ _ _ S1) (ss_reads _ _ _ _ _ _ _ _ _ _ S1) U) as [X1 X2].
    exists l3, e3, m, rs3. split; [exact I3|]. split; [eapply ss_mode; eauto|]. split; [eapply ss_reads; eauto|]. split; [now apply Inc|]. eapply asks_own; eauto. }
  assert (Da : distinct_names E (with_args O a) fs) by (intros l c d U; eapply Dn; eauto).
  assert (Ca : comparable E (with_args O a) fs cache) by (intros l c d p o U P M; eapply Cm; eauto; apply (may_args E O ab); now apply (may_args E O a)).
  assert (Ea : usual_ecosystems E (with_args O a) fs) by (intros l c d p U P; eapply Us; eauto).
  assert (K : forall ck1 c1 x1 ck3 c3 x3, In ck3 (checks tr3) -> view E (with_args O a) fs cache (usables rs1) n1 ck1 c1 x1 ->
    view E (with_args O ab) fs cache (usables rs3) n3 ck3 c3 x3 -> rp_lock (ck_report ck1) = rp_lock (ck_report ck3) -> c1 = c3 -> (flawed ck1 <-> flawed ck3)).
  { intros ck1 c1 x1 ck3 c3 x3 K3 V1 V3 Q Qc.
    destruct (views_agree E O fs cache a ab HS St Da Dn Ca Ea _ _ _ _ _ _ _ _ _ _ V1 V3 Q Qc) as (S & L & _).
    pose proof (Ig ck3 K3) as G3. assert (G1 : ck_ignores ck1 = []) by (destruct S as (_ & S & _); congruence).
    apply like_flawed; [exact S|exact L| |]; eapply no_ignored; eauto. }
  split.
  - intros ck1 K1. destruct (proj1 (session_view _ _ _ _ _ _ _ _ _ _ _ I1 S1 F1 NC) ck1 K1) as (c1 & x1 & V1).
    pose proof (vw_in _ _ _ _ _ _ _ _ _ V1) as J. apply Inc in J.
    destruct (proj2 (session_view _ _ _ _ _ _ _ _ _ _ _ I3 S3 F3 NC) _ _ J) as (ck3 & x3 & K3 & Q & V3). exists ck3. split; [exact K3|].
    eapply K; eauto.
  - intros ck3 c x K3 V3 J. destruct (proj2 (session_view _ _ _ _ _ _ _ _ _ _ _ I1 S1 F1 NC) _ _ J) as (ck1 & x1 & K1 & Q & V1). exists ck1. split; [exact K1|].
    eapply K; eauto.
Qed.

Theorem run_union a b ca sa cb sb cab sab : (forall x, In x (a ++ b) -> has_prefix x "csv-row:" = false) ->
  run E (with_args O a) (start fs cache) = (Ok ca, sa) -> ca = 0%Z \/ ca = 1%Z ->
  run E (with_args O b) (start fs cache) = (Ok cb, sb) -> cb = 0%Z \/ cb = 1%Z ->
  run E (with_args O (a ++ b)) (start fs cache) = (Ok cab, sab) -> cab = 0%Z \/ cab = 1%Z ->
  distinct_names E (with_args O (a ++ b)) fs -> comparable E (with_args O (a ++ b)) fs cache -> usual_ecosystems E (with_args O (a ++ b)) fs ->
  (forall ck, In ck (checks (s_trace sab)) -> ck_ignores ck = []) ->
  (cab = 1%Z <-> ca = 1%Z \/ cb = 1%Z).
Proof.
  intros Np Ra Ha Rb Hb Rc Hc Dn Cm Us Ig.
  destruct (fine_run a ca sa Ra Ha) as (l1 & e1 & m & rs1 & n1 & d1 & Kn & I1 & NS & M1 & S1 & F1 & X1).
  destruct (fine_run b cb sb Rb Hb) as (l2 & e2 & m2 & rs2 & n2 & d2 & _ & I2 & _ & M2 & S2 & F2 & X2).
  destruct (fine_run (a ++ b) cab sab Rc Hc) as (l3 & e3 & m3 & rs3 & n3 & d3 & _ & I3 & _ & M3 & S3 & F3 & X3).
  pose proof (mode_unique _ _ _ _ _ M1 M2) as <-. pose proof (mode_unique _ _ _ _ _ M1 M3) as <-.
  destruct (finds_all_unique _ E _ _ _ _ I3 _ _ (same_entries_refl E) (finds_all_app _ _ _ _ _ I1 _ _ _ I2)) as [-> _].
  assert (G : forall q, In q (l1 ++ l2) -> has_char ":" (fst q) = false /\ fst q <> "csv-row").
  { eapply finds_all_parsers; eauto. now apply known_colon. }
  assert (Q : rs3 = rs1 ++ rs2).
  { eapply (all_reads_unique E (with_args O a) fs m (map as_arg (l1 ++ l2))).
    - apply (all_reads_args E O (a ++ b) a); [exact G|]. eapply ss_reads; eauto.
    - rewrite map_app. apply Forall2_app; [eapply ss_reads; eauto|]. apply (all_reads_args E O b a); [|eapply ss_reads; eauto].
      intros q Q. apply G. apply in_or_app. now right. }
  assert (Qu : usables rs3 = usables rs1 ++ usables rs2) by (rewrite Q; apply flat_map_app).
  assert (J1 : inputs E (with_args O a) l1 e1) by (now apply in_found). assert (J2 : inputs E (with_args O b) l2 e2) by (now apply in_found).
  assert (J3 : inputs E (with_args O (a ++ b)) (l1 ++ l2) e3) by (now apply in_found).
  destruct (part_agrees a (a ++ b) _ _ _ _ _ _ _ _ _ _ _ _ _ NS J1 S1 F1 J3 S3 F3) as [A1 A2]; auto.
  { rewrite Qu. apply incl_appl, incl_refl. }
  destruct (part_agrees b (a ++ b) _ _ _ _ _ _ _ _ _ _ _ _ _ NS J2 S2 F2 J3 S3 F3) as [B1 B2]; auto.
  { rewrite Qu. apply incl_appr, incl_refl. }
  rewrite X1, X2, X3, !Exists_exists. split.
  - intros (ck & K & Fl). destruct (proj1 (session_view _ _ _ _ _ _ _ _ _ _ _ J3 S3 F3 NC) ck K) as (c & x & V).
    pose proof (vw_in _ _ _ _ _ _ _ _ _ V) as J. rewrite Qu in J. apply in_app_or in J as [J|J].
    + left. destruct (A2 ck c x K V J) as (ck1 & K1 & Y). exists ck1. split; [exact K1|now apply Y].
    + right. destruct (B2 ck c x K V J) as (ck1 & K1 & Y). exists ck1. split; [exact K1|now apply Y].
  - intros [(ck & K & Fl)|(ck & K & Fl)].
    + destruct (A1 ck K) as (ck3 & K3 & Y). exists ck3. split; [exact K3|now apply Y].
    + destruct (B1 ck K) as (ck3 & K3 & Y). exists ck3. split; [exact K3|now apply Y].
Qed.
End Union.
