From Verif Require Import Parsers ParserSpec ParserProofs CrashProofs.
From Verif Require Import GoStr GoStrFacts GoSort GoMap Types Osv OsvSpec OsvProofs MemDB MemDBSpec MemDBProofs Path Api ApiSpec ApiProofs ZipDB ZipSpec ZipProofs DirDB DirDBSpec DirDBProofs DbConfig Configer ConfigSpec ConfigProofs Lockfile Csv Json JsonSpec JsonGrammar Report ReportSpec ReportProofs Main MainSpec MainTrace MainProofs DiscoverProofs RunProofs RunFacts RunEnd LockfileSpec ListProofs EndSpec EndProofs ApiRunSpec ApiRunProofs CrashRunSpec.

(** ** steps that never crash *)
Definition safe {A} (m : M A) : Prop := forall s, fst (m s) <> Panic.
Lemma bind_panic {A B} (m : M A) (f : A -> M B) s s' : bind m f s = (Panic, s') ->
  m s = (Panic, s') \/ exists a s1, m s = (Ok a, s1) /\ f a s1 = (Panic, s').
Proof. unfold bind. destruct (m s) as [[a|] s1]; intros H; [right; eauto|left; injection H as <-; reflexivity]. Qed.
Lemma safe_at {A} (m : M A) s s' : safe m -> m s = (Panic, s') -> False.
Proof. intros H Q. apply (H s). now rewrite Q. Qed.
Lemma safe_ret {A} (a : A) : safe (ret a). Proof. discriminate. Qed.
Lemma safe_get {A} (f : St -> A) : safe (get f). Proof. discriminate. Qed.
Lemma safe_emit e : safe (emit e). Proof. discriminate. Qed.
Lemma safe_bind {A B} (m : M A) (f : A -> M B) : safe m -> (forall a, safe (f a)) -> safe (bind m f).
Proof. intros H1 H2 s. unfold bind. specialize (H1 s). destruct (m s) as [[a|] s1]; [apply H2|now destruct H1]. Qed.
Lemma safe_each {A} (f : A -> M unit) l : (forall a, safe (f a)) -> safe (each f l).
Proof. intros H. induction l as [|a l IH]; cbn [each]; [apply safe_ret|]. apply safe_bind; [apply H|intros _; exact IH]. Qed.
Lemma safe_error t : safe (print_error t). Proof. discriminate. Qed.
Lemma safe_text O t : safe (print_text O t). Proof. discriminate. Qed.
Lemma safe_heap h : safe (set_heap h). Proof. discriminate. Qed.
Lemma safe_dbs h : safe (set_dbs h). Proof. discriminate. Qed.
Lemma safe_files h : safe (set_files h). Proof. discriminate. Qed.
Lemma safe_cache h : safe (set_cache h). Proof. discriminate. Qed.
Lemma safe_result r : safe (add_result r). Proof. discriminate. Qed.
Ltac sf := repeat match goal with
  | |- safe (bind _ _) => apply safe_bind; [|intros ?]
  | |- safe (ret _) => apply safe_ret
  | |- safe (get _) => apply safe_get
  | |- safe (emit _) => apply safe_emit
  | |- safe (print_error _) => apply safe_error
  | |- safe (print_text _ _) => apply safe_text
  | |- safe (set_heap _) => apply safe_heap
  | |- safe (set_dbs _) => apply safe_dbs
  | |- safe (set_files _) => apply safe_files
  | |- safe (set_cache _) => apply safe_cache
  | |- safe (add_result _) => apply safe_result
  | |- safe (each _ _) => apply safe_each; intros ?
  | |- safe (if ?b then _ else _) => destruct b
  | |- safe (match ?b with _ => _ end) => destruct b
  | H : safe ?m |- safe ?m => exact H
  | _ => progress cbv zeta
  end.
(** skip a step that never crashes; [a] and the equation are kept *)
Ltac past H a s1 Hm := apply bind_panic in H as [H|(a & s1 & Hm & H)]; [exfalso; revert H; apply safe_at; sf|].

(** ** one advisory *)
Lemma permuted_pair {A} (P Q : A -> Prop) l l' : Permutation l l' ->
  (exists i j e f, i <> j /\ nth_error l' i = Some e /\ nth_error l' j = Some f /\ P e /\ Q f) ->
  exists i j e f, i <> j /\ nth_error l i = Some e /\ nth_error l j = Some f /\ P e /\ Q f.
Proof.
  intros Pm (i & j & e & f & N & I & J & p & q). apply Permutation_nth_error in Pm as (_ & g & G & H).
  exists (g i), (g j), e, f. rewrite <- !H. split; [intros X; apply N, G, X|auto].
Qed.
Lemma crash_range_same sem p r r' : range_same r r' -> crash_range sem p r' -> crash_range sem p r.
Proof.
  intros [T Pm] (V & N & H). split; [unfold version_typed in *; now rewrite T|]. split; [intros Q; rewrite Q in Pm; apply Permutation_nil in Pm; contradiction|].
  destruct H as [H|H]; [now left|right]. 
  destruct (permuted_pair (unparseable_event sem (p_cmp p)) (fun o => introduced o <> "0") _ _ Pm) as (i & j & e & f & X); [destruct H as (i & j & e & f & X); eauto 8|].
  exists i, j, e, f. exact X.
Qed.
Lemma incomparable_same sem o o' p : osv_same o o' -> incomparable sem o' p -> incomparable sem o p.
Proof.
  intros [_ _ _ _ _ _ _ Sa] (a' & r' & A & R & X1 & X2 & X3). destruct (EndProofs.Forall2_right _ _ _ _ Sa A) as (a & Ia & Pa & _ & Ra).
  destruct (EndProofs.Forall2_right _ _ _ _ Ra R) as (r & Ir & Rr). exists a, r. rewrite Pa. split; [exact Ia|]. split; [exact Ir|].
  split; [exact X1|]. split; [exact X2|]. eapply crash_range_same; eauto.
Qed.
Lemma bucket_panic S sem pkg os : SorterOk S -> ComparesOk S -> forall addrs h acc, Forall2 osv_same os h ->
  bucket_loop S sem pkg h addrs acc = Panic -> (forall i, In i addrs -> i < List.length os) ->
  exists o, In o os /\ o_withdrawn o = None /\ incomparable sem o pkg.
Proof.
  intros HS HC. induction addrs as [|j addrs IH]; intros h acc F H L; cbn [bucket_loop] in H; [discriminate|].
  assert (Hv : osv_same (nth j os no_osv) (deref h j)) by (apply (MemDBProofs.Forall2_nth osv_same); [exact F|apply osv_same_refl]).
  assert (L' : forall i, In i addrs -> i < List.length os) by (intros i I; apply L; now right).
  destruct (o_withdrawn (deref h j)) eqn:W; [eapply IH; eauto|]. destruct (is_affected S sem (deref h j) pkg) as [[b v']|] eqn:Q.
  - cbn [rbind] in H. assert (Sm : osv_same (nth j os no_osv) v') by (eapply osv_same_trans; [exact Hv|]; eapply is_affected_frame; eauto).
    assert (F' : Forall2 osv_same os (heap_set h j v')) by (apply Forall2_heap_set; assumption).
    destruct (b && _); eapply IH; eauto.
  - exists (nth j os no_osv). split; [apply nth_In, L; now left|]. split; [destruct Hv; congruence|].
    eapply incomparable_same; [exact Hv|]. eapply is_affected_panic; eauto.
Qed.
Lemma affecting_panic S sem names os db pkg : SorterOk S -> ComparesOk S -> db_state names os db -> vulnerabilities_affecting S sem db pkg = Panic ->
  exists o, In o os /\ o_withdrawn o = None /\ incomparable sem o pkg.
Proof.
  intros HS HC [Dh Dv _] H. rewrite affecting_as_loop, Dv in H. destruct (load_all_spec names os) as (_ & _ & Hb). rewrite Hb in H.
  destruct (bucket_loop _ _ _ _ _ _) as [[vs0 h']|] eqn:Q; [discriminate|].
  destruct (bucket_panic S sem pkg _ HS HC _ _ _ Dh Q) as (o & O1 & O2); [intros i I; apply block_in in I; lia|].
  exists o. split; [now apply filter_In in O1|exact O2].
Qed.
Lemma check_panic S sem names os : SorterOk S -> ComparesOk S -> forall pkgs db, db_state names os db -> check S sem db pkgs = Panic ->
  exists p o, In p pkgs /\ In o os /\ o_withdrawn o = None /\ incomparable sem o p.
Proof.
  intros HS HC. induction pkgs as [|p pkgs IH]; intros db D H; cbn [check] in H; [discriminate|].
  destruct (vulnerabilities_affecting S sem db p) as [[vs db1]|] eqn:Q; cbn [rbind] in H.
  - destruct (check S sem db1 pkgs) as [[rest db2]|] eqn:Q2; [discriminate|].
    destruct (IH db1) as (p' & o & I & X); [eapply affecting_frame; eauto|exact Q2|]. exists p', o. split; [now right|exact X].
  - destruct (affecting_panic _ _ _ _ _ _ HS HC D Q) as (o & X). exists p, o. split; [now left|exact X].
Qed.
Lemma check_length S sem pkgs : forall db rs db', check S sem db pkgs = Ok (rs, db') -> List.length rs = List.length pkgs.
Proof.
  induction pkgs as [|p pkgs IH]; intros db rs db' H; cbn [check] in H; [now injection H as <- _|].
  destruct (vulnerabilities_affecting S sem db p) as [[vs db1]|]; [|discriminate]. cbn [rbind] in H.
  destruct (check S sem db1 pkgs) as [[rest db2]|] eqn:Q2; [|discriminate]. injection H as <- _. cbn. f_equal. eauto.
Qed.

(** ** transposing *)
Lemma column_panic i all : column i all = Panic -> exists r, In r all /\ List.length r <= i.
Proof.
  induction all as [|r all IH]; cbn [column]; [discriminate|]. destruct (nth_error r i) eqn:N.
  - destruct (column i all); [discriminate|]. intros _. destruct (IH eq_refl) as (x & X & Y). exists x. split; [now right|exact Y].
  - intros _. exists r. split; [now left|]. now apply nth_error_None.
Qed.
Lemma transpose_panic ignores all pkgs : forall i, transpose_all pkgs ignores i all = Panic ->
  exists r, In r all /\ List.length r < i + List.length pkgs.
Proof.
  induction pkgs as [|p ps IH]; intros i H; cbn [transpose_all] in H; [discriminate|]. unfold transpose in H.
  destruct (column i all) as [vs|] eqn:C; cbn [rbind] in H.
  - destruct (fold_left _ vs _) as [a b]. cbn [rbind] in H. destruct (transpose_all ps ignores (i + 1) all) eqn:T; [discriminate|].
    destruct (IH _ T) as (r & R1 & R2). exists r. split; [exact R1|]. cbn. lia.
  - destruct (column_panic _ _ C) as (r & R1 & R2). exists r. split; [exact R1|]. cbn. lia.
Qed.

Section Run.
Variable E : Env.
Variable O : Opts.
Notation Evolves := (evolves (e_sort E) (e_sem E)).

Lemma safe_load_cfg path : safe (load_cfg E path).
Proof. unfold load_cfg, report_db_errs. sf. Qed.
Lemma safe_find_cfg dir : safe (find_cfg E dir).
Proof. unfold find_cfg. apply safe_bind; [apply safe_load_cfg|]. intros [[]|]; sf; apply safe_load_cfg. Qed.
Lemma safe_alloc c : safe (alloc c). Proof. unfold alloc. sf. Qed.
Lemma safe_load_at i : safe (load_at i). Proof. unfold load_at. sf. Qed.
Lemma safe_adjust files : safe (adjust_all E O files).
Proof. unfold adjust_all, adjust_one. sf. Qed.
Lemma safe_print_result r : safe (print_result E O r).
Proof. unfold print_result. sf. Qed.
Lemma safe_write seen : safe (write_updated_configs E O seen).
Proof.
  unfold write_updated_configs. apply safe_bind; [sf|]. intros _. apply safe_bind; [|intros; sf].
  induction (e_iter E _ seen) as [|x l IH]; cbn [update_all]; [sf|]. apply safe_bind; [|intros; sf].
  unfold update_one. sf.
Qed.
Lemma safe_find_all : safe (find_all_lockfiles E O).
Proof.
  unfold find_all_lockfiles. destruct (seqb _ _); [sf|]. induction (o_args O) as [|p ps IH]; cbn [find_all_loop]; [sf|].
  unfold find_lockfiles. sf.
Qed.

(** ** reading *)
Lemma read_all_panic local : forall paths cfg s s', read_all E O paths local cfg s = (Panic, s') ->
  exists p, In p paths /\ parse_lockfile E O p = Panic.
Proof.
  induction paths as [|p ps IH]; intros cfg s s' H; cbn [read_all] in H; [discriminate|]. cbv zeta in H.
  assert (FIN : forall cfg1 s1, (x <- lift (parse_lockfile E O p) ; rest <- read_all E O ps local cfg1 ; ret (mkLFile (fst x) cfg1 (snd x) :: rest)) s1 = (Panic, s') ->
    exists p0, In p0 (p :: ps) /\ parse_lockfile E O p0 = Panic).
  { intros cfg1 s1 Q. apply bind_panic in Q as [Q|(x & s2 & Hx & Q)].
    - unfold lift in Q. injection Q as Q _. exists p. split; [now left|exact Q].
    - apply bind_panic in Q as [Q|(rest & s3 & Hr & Q)]; [|discriminate]. destruct (IH _ _ _ Q) as (p0 & I & X). exists p0. split; [now right|exact X]. }
  destruct local.
  - apply bind_panic in H as [H|(x & s1 & Hx & H)]; [exfalso; revert H; apply safe_at, safe_find_cfg|]. destruct x as [e|con].
    + apply bind_panic in H as [Q|(rest & s3 & Hr & Q)]; [|discriminate]. destruct (IH _ _ _ Q) as (p0 & I & X). exists p0. split; [now right|exact X].
    + apply bind_panic in H as [H|(a & s2 & Ha & H)]; [exfalso; revert H; apply safe_at, safe_alloc|]. eapply FIN; eauto.
  - apply bind_panic in H as [H|(c & s1 & Hc & H)]; [exfalso; revert H; apply safe_at, safe_load_at|]. destruct (negb _); [|eapply FIN; eauto].
    apply bind_panic in H as [H|(a & s2 & Ha & H)]; [exfalso; revert H; apply safe_at, safe_alloc|]. eapply FIN; eauto.
Qed.

(** ** loading *)
Lemma load_loop_panic cache0 names : forall cs s s', (forall path, cached E O cache0 path (s_cache s path)) -> load_loop E O cs names s = (Panic, s') ->
  exists c before w reqs, In c cs /\ cached E O cache0 (e_cache_path E (dc_url c)) before
    /\ load_db (e_world E) before c (o_offline O) (o_batch O) names = (Panic, w, reqs).
Proof.
  induction cs as [|c cs IH]; intros s s' CA H; cbn [load_loop] in H; [discriminate|].
  past H u0 sp Hp0. assert (KC : same_cache s sp) by (eapply keeps_at; [|exact Hp0]; kk). clear Hp0.
  past H u s1 He. assert (K1 : same_cache sp s1) by (eapply keeps_at; [|exact He]; kk). clear He.
  past H cache s2 Hg. injection Hg as <- <-.
  assert (CA1 : forall path, cached E O cache0 path (s_cache s1 path)) by (intros path; rewrite K1, KC; apply CA).
  destruct (load_db _ _ _ _ _ _) as [[r w] reqs] eqn:L.
  past H ur sr Hreq. clear Hreq. past H uc sc Hset.
  assert (CA2 : forall path, cached E O cache0 path (s_cache sc path)).
  { intros path. injection Hset as _ <-. cbn [s_cache]. destruct w as [content|]; [|apply CA1].
    unfold file_set. destruct (seqb_spec path (e_cache_path E (dc_url c))) as [->|]; [|apply CA1].
    eapply ca_saved; [reflexivity| |exact L]. apply CA1. }
  clear Hset. assert (Later : forall s3, (forall path, cached E O cache0 path (s_cache s3 path)) -> load_loop E O cs names s3 = (Panic, s') ->
    exists c0 before w reqs, In c0 (c :: cs) /\ cached E O cache0 (e_cache_path E (dc_url c0)) before
      /\ load_db (e_world E) before c0 (o_offline O) (o_batch O) names = (Panic, w, reqs)).
  { intros s3 CA3 Q. destruct (IH _ _ CA3 Q) as (c0 & b & w0 & rq & I & X). exists c0, b, w0, rq. split; [now right|exact X]. }
  apply bind_panic in H as [H|(x & s5 & Hx & H)].
  - unfold lift in H. injection H as -> _. exists c, (s_cache s1 (e_cache_path E (dc_url c))), w, reqs. split; [now left|]. split; [apply CA1|exact L].
  - unfold lift in Hx. injection Hx as _ <-. destruct x as [e|db].
    + past H u2 s6 He. assert (K2 : same_cache sc s6) by (eapply keeps_at; [|exact He]; kk). clear He.
      apply bind_panic in H as [H|(u3 & s7 & Hp & H)]; [exfalso; revert H; apply safe_at; unfold print_load_err; sf|].
      assert (K3 : same_cache s6 s7) by (eapply keeps_at; [|exact Hp]; unfold print_load_err; kk).
      apply bind_panic in H as [H|(y & s8 & Hy & H)]; [|discriminate]. apply (Later s7); [|exact H]. intros path. rewrite K3, K2. apply CA2.
    + past H u3 s7 Hp. assert (K3 : same_cache sc s7) by (eapply keeps_at; [|exact Hp]; kk).
      apply bind_panic in H as [H|(y & s8 & Hy & H)]; [|discriminate]. apply (Later s7); [|exact H]. intros path. rewrite K3. apply CA2.
Qed.
Lemma load_panic before d names w reqs : load_db (e_world E) before d (o_offline O) (o_batch O) names = (Panic, w, reqs) ->
  dc_type d = "zip" /\ o_offline O = false /\ useless before /\ says_unchanged E (dc_url d).
Proof.
  unfold load_db. destruct (seqb_spec (dc_type d) "zip") as [T|_].
  - destruct (zip_load _ _ _ _ _ _ _ _) as [[r w'] rq] eqn:Z. destruct r as [x|]; cbn [rbind]; [destruct x as [|[]]; discriminate|]. intros _.
    split; [exact T|]. unfold zip_load in Z. cbv zeta in Z. injection Z as Z _ _.
    destruct (f_result _) as [x|] eqn:F; [destruct x as [|[]]; cbn in Z; [discriminate|destruct (w_unzip _ _); discriminate]|]. clear Z.
    unfold fetch_zip in F. destruct (o_offline O); [destruct (match before with Some _ => _ | None => _ end); discriminate|]. split; [reflexivity|].
    assert (U : match before with Some content => fst (dec_cache content) | None => None end = None -> useless before).
    { destruct before as [b|]; [|intros _; exact I]. intros Q j J. apply parse_iff in J. unfold dec_cache in Q. rewrite J in Q.
      destruct j; cbn in Q; try discriminate; [reflexivity|]. destruct (fold_left _ _ _); discriminate. }
    destruct (match before with Some _ => _ | None => _ end) as [c|]; cbv zeta in F.
    + exfalso. destruct (w_answer _ _) as [| |st et dt b]; try discriminate. destruct (st =? 304)%Z; [discriminate|]. destruct (negb _); [discriminate|]. destruct b; discriminate.
    + split; [now apply U|]. destruct (w_answer _ _) as [| |st et dt b] eqn:A; try discriminate. unfold says_unchanged. rewrite A.
      destruct (Z.eqb_spec st 304) as [->|_]; [eauto|]. destruct (negb _); [discriminate|]. destruct b; discriminate.
  - destruct (seqb (dc_type d) "api"); [destruct (new_api_db _ _ _ _ _ _); discriminate|]. destruct (seqb (dc_type d) "dir"); [destruct (dir_load _ _ _ _ _ _); discriminate|discriminate].
Qed.

(** ** checking *)
Lemma check_dbs_panic k lf ds0 : forall use s s', check_dbs E k use lf s = (Panic, s') -> Forall2 Evolves ds0 (s_dbs s) ->
  (forall i, In i use -> i < List.length ds0) ->
  exists i d0 d, In i use /\ nth_error ds0 i = Some d0 /\ Evolves d0 d /\ check_db E k d (lf_pkgs lf) = Panic.
Proof.
  induction use as [|i use IH]; intros s s' H F L; cbn [check_dbs] in H; [discriminate|].
  past H ds s0 Hg. injection Hg as <- <-. destruct (nth_error (s_dbs s) i) as [d|] eqn:N.
  2:{ exfalso. apply nth_error_None in N. pose proof (ApiRunProofs.Forall2_same_length _ _ _ F) as X. specialize (L i (or_introl eq_refl)). lia. }
  destruct (MainProofs.Forall2_nth _ _ _ _ _ F N) as (d0 & N0 & V).
  apply bind_panic in H as [H|(u & s1 & Hu & H)]; [exfalso; revert H; apply safe_at; destruct d; sf|].
  assert (D1 : s_dbs s1 = s_dbs s) by (destruct d; injection Hu as _ <-; reflexivity). clear Hu.
  apply bind_panic in H as [H|(x & s2 & Hx & H)].
  { unfold lift in H. injection H as H _. exists i, d0, d. split; [now left|auto]. }
  unfold lift in Hx. injection Hx as Hx <-. destruct x as [r d']. past H u2 s3 Hs. injection Hs as _ <-.
  destruct (check_db_answers E k d0 d _ _ _ V Hx) as [V' _].
  assert (F' : Forall2 Evolves ds0 (upd (s_dbs s) i d')) by (eapply upd_Forall2; eauto).
  assert (Later : forall s4, s_dbs s4 = upd (s_dbs s) i d' -> check_dbs E k use lf s4 = (Panic, s') ->
     exists j d1 d2, In j (i :: use) /\ nth_error ds0 j = Some d1 /\ Evolves d1 d2 /\ check_db E k d2 (lf_pkgs lf) = Panic).
  { intros s4 Q4 Q. destruct (IH _ _ Q) as (j & d1 & d2 & J & X); [now rewrite Q4|intros j J; apply L; now right|]. exists j, d1, d2. split; [now right|exact X]. }
  destruct r as [e|results].
  - past H u4 s4 Hp. apply (Later s4); [|exact H]. now injection Hp as _ <-.
  - apply bind_panic in H as [H|(y & s8 & Hy & H)]; [|discriminate]. eapply Later; [|exact H]. reflexivity.
Qed.
(** why the check of a lockfile crashes *)
Definition check_crash (k : nat) (d0 : DB) (pkgs : list Pkg) : Prop :=
  (exists d, Evolves d0 d /\ check_db E k d pkgs = Panic)
  \/ exists rs, answers E k pkgs d0 (Some rs) /\ List.length rs < List.length pkgs.
Lemma check_files_panic ds0 h0 : o_list_pkgs O = false ->
  forall files, Forall (fun f => proper (nth (l_cfg f) h0 empty_config)) (goods files) ->
  forall k exit seen s s', check_files E O files k exit seen s = (Panic, s') -> Forall2 Evolves ds0 (s_dbs s) -> same_but_ignores O h0 (s_heap s) ->
  exists f k d0, In f (goods files) /\ In d0 ds0 /\ In (db_ident d0) (map identifier (cf_dbs (nth (l_cfg f) h0 empty_config)))
    /\ check_crash k d0 (lf_pkgs (l_lock f)).
Proof.
  intros HL. induction files as [|f fs IH]; intros HP k exit seen s s' H F SB; cbn [check_files] in H; [discriminate|].
  past H u0 s0 Hp0. assert (K0 : still s s0) by (eapply keeps_at; [|exact Hp0]; ss). clear Hp0.
  unfold goods in HP. cbn [filter] in HP. unfold goods. cbn [filter]. destruct (l_err f) as [e|] eqn:Er.
  - specialize (IH HP). past H u1 s1 Hp1. assert (K1 : still s0 s1) by (eapply keeps_at; [|exact Hp1]; ss).
    pose proof (still_trans _ _ _ K0 K1) as [[n1 T1 Q1 Hh1 Hf1 Hr1] D1]. eapply IH; [exact H|now rewrite D1|now rewrite Hh1].
  - inversion HP as [|? ? HP1 HP2]; subst. specialize (IH HP2). destruct HP1 as [HN HI].
    past H h s2 Hg. injection Hg as <- <-. cbv zeta in H. set (c := if o_no_ignores O then _ else _) in H.
    past H u s3 Hs. injection Hs as _ <-. set (s3 := mkSt _ _ _ _ _ _ _) in H.
    past H u1 s4 H1. assert (K1 : still s3 s4) by (eapply keeps_at; [|exact H1]; ss). clear H1.
    rewrite HL in H. past H u2 s5 H2. assert (K2 : still s4 s5) by (eapply keeps_at; [|exact H2]; ss). clear H2.
    past H dbs s6 Hg. injection Hg as <- <-.
    past H u3 s7 H3. assert (K3 : still s5 s7) by (eapply keeps_at; [|exact H3]; ss). clear H3.
    past H u4 s8 H4. assert (K4 : still s7 s8) by (eapply keeps_at; [|exact H4]; ss). clear H4.
    pose proof (still_trans _ _ _ (still_trans _ _ _ K1 K2) (still_trans _ _ _ K3 K4)) as [[n5 T5 Q5 Hh5 Hf5 Hr5] D5].
    destruct K0 as [[n0 T0 Q0 Hh0 Hf0 Hr0] D0]. pose proof (still_trans _ _ _ K1 K2) as [_ D6].
    assert (SB3 : same_but_ignores O h0 (s_heap s3)).
    { cbn. apply same_but_upd; [now rewrite Hh0|]. pose proof (same_but_nth O h0 (s_heap s) (l_cfg f) SB) as (A & B & C). cbn zeta in *.
      unfold c. rewrite Hh0. destruct (o_no_ignores O); cbn; repeat split; auto. discriminate. }
    assert (Dc : cf_dbs c = cf_dbs (nth (l_cfg f) h0 empty_config)).
    { pose proof (same_but_nth O h0 (s_heap s) (l_cfg f) SB) as (_ & SD & _). cbn zeta in SD. unfold c. rewrite Hh0. destruct (o_no_ignores O); exact SD. }
    rewrite Dc in H. set (c0 := nth (l_cfg f) h0 empty_config) in *.
    assert (D2 : s_dbs s5 = s_dbs s) by (rewrite D6; exact D0).
    assert (F8 : Forall2 Evolves ds0 (s_dbs s8)) by (rewrite D5; cbn; now rewrite D0).
    destruct (for_configs_spec ds0 (s_dbs s5) (cf_dbs c0)) as (used & U1 & U2); [rewrite D2; now apply (idents_same E)|exact HN|].
    assert (Us : forall d0, In d0 used -> In d0 ds0 /\ In (db_ident d0) (map identifier (cf_dbs c0))) by (intros d0; apply (selects_in _ _ _ _ U1)).
    apply bind_panic in H as [H|(x & s9 & Hx & H)].
    + unfold check_lockfile in H. apply bind_panic in H as [H|(raw & s10 & Hd & H)].
      * apply (check_dbs_panic _ _ ds0) in H as (i & d0 & d & I & N & V & C); [|exact F8|].
        -- exists f, k, d0. destruct (EndProofs.Forall2_left _ _ _ _ U2 I) as (d1 & I1 & N1). assert (d1 = d0) as -> by congruence.
           destruct (Us d0 I1) as [X1 X2]. split; [now left|]. split; [exact X1|]. split; [exact X2|]. left. eauto.
        -- intros i I. destruct (EndProofs.Forall2_left _ _ _ _ U2 I) as (d1 & _ & N1). apply nth_error_Some. congruence.
      * destruct (check_dbs_spec E k (l_lock f) _ ds0 _ _ _ Hd F8) as (_ & _ & ans & FA & ->).
        apply bind_panic in H as [H|(y & s11 & Hy & H)]; [|discriminate]. unfold lift in H. injection H as H _.
        apply transpose_panic in H as (r & R1 & R2). apply given_in in R1. destruct (EndProofs.Forall2_right _ _ _ _ FA R1) as (i & I & d1 & N1 & A1).
        destruct (EndProofs.Forall2_left _ _ _ _ U2 I) as (d2 & I2 & N2). assert (d2 = d1) as -> by congruence. destruct (Us d1 I2) as [X1 X2].
        exists f, k, d1. split; [now left|]. split; [exact X1|]. split; [exact X2|]. right. exists r. split; [exact A1|exact R2].
    + unfold check_lockfile in Hx. step Hx raw s10 Hd. step Hx rows s11 Ht. injection Ht as Ht <-. injection Hx as <- <-. cbn [fst snd] in H.
      destruct (check_dbs_spec E k (l_lock f) _ ds0 _ _ _ Hd F8) as ([n10 T10 Q10 Hh10 Hf10 Hr10] & F10 & _).
      past H u5 s11 He. apply bind_panic in H as [H|(u6 & s12 & Hp & H)]; [exfalso; revert H; apply safe_at, safe_print_result|].
      assert (P12 : s_heap s12 = s_heap s10 /\ s_dbs s12 = s_dbs s10).
      { injection He as _ <-. unfold print_result, add_result, emit in Hp. destruct (o_json O); injection Hp as _ <-; auto. }
      destruct P12 as [P1 P2]. destruct (IH _ _ _ _ _ H) as (f1 & k1 & d1 & I1 & X); [now rewrite P2|rewrite P1, Hh10, Hh5; exact SB3|].
      exists f1, k1, d1. split; [now right|exact X].
Qed.
Lemma check_files_listing : o_list_pkgs O = true -> forall files k exit seen, safe (check_files E O files k exit seen).
Proof.
  intros HL. induction files as [|f fs IH]; intros k exit seen; cbn [check_files]; [sf|]. apply safe_bind; [sf|]. intros _.
  destruct (l_err f); [apply safe_bind; [sf|]; intros _; apply IH|]. cbv zeta. apply safe_bind; [sf|]. intros h. apply safe_bind; [sf|]. intros _.
  apply safe_bind; [sf|]. intros _. rewrite HL. apply safe_bind; [apply safe_print_result|]. intros _. apply IH.
Qed.
Hypothesis SO : SorterOk (e_sort E).
Hypothesis CO : ComparesOk (e_sort E).
Hypothesis IT : IterOk (e_iter E).
Hypothesis EO : EntriesOk E.

Lemma run_files_panic fs cache l e mode cfg s s' : checking O -> (forall path, cached E O cache path (s_cache s path)) -> s_files s = fs ->
  inputs E O l e -> distinct_names E O fs ->
  run_files E O (map as_arg l) (mode_local mode) cfg s = (Panic, s') ->
  mode_of E O fs mode ->
  (forall c, mode = Same c -> cfg < List.length (s_heap s) /\ nth cfg (s_heap s) empty_config = c) ->
  (exists q, In q l /\ parse_lockfile E O (as_arg q) = Panic) \/ crash_reason E O fs cache (crashes_on E) \/ api_crash E O fs.
Proof.
  intros CH CA Hfs IN DN H HM HC. assert (HL : o_list_pkgs O = false) by apply CH. unfold run_files in H.
  apply bind_panic in H as [H|(lfs & s1 & Hr & H)].
  { left. apply read_all_panic in H as (p & I & P). apply in_map_iff in I as (q & <- & I). eauto. }
  right. pose proof (keeps_at _ _ _ _ _ (K_read_all E O _ _ _) Hr) as KR.
  apply (read_all_spec E O mode) in Hr; [|exact HC]. rewrite Hfs in Hr.
  destruct Hr as (((n1 & T1 & Q1) & F1 & R1 & D1) & (more & Hm & Hms) & (rs & RD & FO) & AD).
  assert (SE : forall c, mode = Same c -> cf_path c = "" -> c = empty_config).
  { intros c -> P. destruct (mode_sourced _ _ _ _ HM) as [|[N _]]; [assumption|contradiction]. }
  destruct (adjust_spec E O SO IT mode cfg lfs rs s1 (List.length (s_heap s)) SE) as (h' & AA & AF & AG); [|exact FO|].
  { destruct (mode_shared mode) eqn:MS; [|exact AD].
    pose proof (proj1 (shared_iff mode SE) MS) as Sh. rewrite (Hms eq_refl), app_nil_r in Hm. rewrite Hm.
    unfold shared in Sh. destruct (HC _ Sh). auto. }
  pose proof (files_usables _ _ _ FO) as HU.
  apply bind_panic in H as [H|(u & s2 & Ha & H)]; [exfalso; revert H; apply safe_at, safe_adjust|]. rewrite AA in Ha. injection Ha as _ <-.
  past H h s3 Hg. injection Hg as <- <-. cbn [with_heap s_heap] in H.
  assert (LF : forall d, In d (unique_db_configs (map cf_dbs (get_configs h' lfs))) -> exists l0 c, uses E O fs l0 c d).
  { intros d X. rewrite get_configs_goods in X. apply (proj1 (proj2 (unique_once _))) in X. apply in_concat in X as (l0 & X1 & X2).
    apply in_map_iff in X1 as (c' & <- & X1). apply in_map_iff in X1 as (f & <- & G).
    eapply Forall_forall in AG; [|exact G]. exists (l_lock f), (nth (l_cfg f) (s_heap s1) empty_config). exists l, e, mode, rs. split; [exact IN|]. split; [exact HM|]. split; [exact RD|].
    split; [|now apply AG]. rewrite HU. apply (in_map (usable_of (s_heap s1)) _ f G). }
  set (configs := unique_db_configs _) in *. set (names := all_names E lfs) in *.
  assert (CA1 : forall path, cached E O cache path (s_cache (with_heap s1 h') path)) by (intros path; cbn; rewrite KR; apply CA).
  apply bind_panic in H as [H|(x & s4 & Hl & H)].
  { left. unfold load_databases in H. rewrite HL in H. past H u0 sp Hp. assert (KC : same_cache (with_heap s1 h') sp) by (eapply keeps_at; [|exact Hp]; kk).
    apply bind_panic in H as [H|(y & s8 & Hy & H)].
    - apply (load_loop_panic cache) in H as (d & before & w & rq & I & B & L); [|intros path; rewrite KC; apply CA1].
      destruct (LF d I) as (l0 & c0 & U). destruct (load_panic _ _ _ _ _ L) as (T & Off & Ul & Sa). eapply cr_unchanged; eauto.
    - exfalso. past H u1 s9 Hp1. discriminate. }
  unfold load_databases in Hl. rewrite HL in Hl. step Hl up sp Hp0.
  assert (K : still (with_heap s1 h') sp) by (eapply keeps_at; [|exact Hp0]; ss).
  assert (KC : same_cache (with_heap s1 h') sp) by (eapply keeps_at; [|exact Hp0]; kk). clear Hp0. step Hl r s5 Hll. step Hl u0 s5b Hpt.
  assert (K0 : still s5 s5b) by (eapply keeps_at; [|exact Hpt]; ss). injection Hl as -> ->.
  destruct x as [ds b].
  apply (load_loop_spec _ _ cache) in Hll; [|intros path; rewrite KC; apply CA1]. destruct Hll as (n2 & T2 & C2 & W2 & L2 & LD & Hb & Hh2 & Hf2 & Hr2 & Hd2).
  destruct K as [[n0 T0 Q0 Hh0 Hf0 Hr0] D0]. destruct K0 as [[n3 T3 Q3 Hh3 Hf3 Hr3] D3]. cbn [with_heap s_trace s_heap s_files s_results s_dbs] in *.
  past H u4 s6 Hs. injection Hs as _ <-. cbn [fst snd] in H.
  apply bind_panic in H as [H|(y & s7 & Hc & H)].
  2:{ exfalso. apply bind_panic in H as [H|(u5 & s8 & Hw & H)]; [revert H; apply safe_at; destruct (o_update O); [apply safe_write|sf]|]. past H er s9 Hg. discriminate. }
  apply (check_files_panic ds h' HL) in H.
  2:{ apply Forall_forall. intros f G. eapply Forall_forall in AF; [|exact G]. destruct AF as [N (P & I & _)]. split; [exact N|].
      rewrite P, I. intros Pe. assert (In (usable_of (s_heap s1) f) (usables rs)) as U by (rewrite HU; now apply in_map).
      pose proof (usable_sourced E O fs mode _ rs _ _ HM RD U) as [-> |[N' _]]; [reflexivity|contradiction]. }
  2:{ cbn [s_dbs]. clear. induction ds; constructor; auto. apply evolves_refl. }
  2:{ cbn [s_heap]. rewrite Hh3, Hh2, Hh0. apply same_but_refl. }
  destruct H as (f & k & d0 & G & I0 & Id & CC).
  eapply Forall_forall in AF; [|exact G]. destruct AF as [_ (_ & _ & IE)]. destruct (proj1 (IE _) Id) as (d & As & Ed).
  assert (U : uses E O fs (l_lock f) (nth (l_cfg f) (s_heap s1) empty_config) d).
  { exists l, e, mode, rs. split; [exact IN|]. split; [exact HM|]. split; [exact RD|]. split; [|exact As]. rewrite HU. apply (in_map (usable_of (s_heap s1)) _ f G). }
  destruct (proj2 (loaded_in _ _ _ _ _ _ _ LD) d0 I0) as (c' & C' & LA). destruct (LF c' C') as (l' & cc & U').
  destruct (loads_content _ _ _ _ _ _ LA) as [Iq Ct].
  destruct (same_identifier _ _ _ _ _ _ _ _ _ DN U U') as (S1 & S2 & S3); [congruence|].
  destruct Ct as [[T (a & ->)]|(os & Ct)].
  - right. destruct (loads_api E O cache _ _ _ LA T) as (a' & Qa & Off & Ba & Ao). injection Qa as <-.
    exists (l_lock f), (nth (l_cfg f) (s_heap s1) empty_config), d, a, k. split; [exact CH|]. split; [exact U|]. split; [congruence|].
    split; [eapply api_of_move; [| |exact Ao]; congruence|]. split; [exact Ba|]. destruct CC as [(d1 & V & C)|(rs0 & An & Le)].
    + left. inversion V; subst. cbn in C. destruct (e_api E k a _); [discriminate|reflexivity].
    + right. inversion An as [| |a0 rs1 Q|]; subst. eauto.
  - left. destruct CC as [(d1 & V & C)|(rs0 & An & Le)].
    + assert (X : exists db, db_state names os db /\ check (e_sort E) (e_sem E) db (lf_pkgs (l_lock f)) = Panic).
      { destruct Ct as [n date entries os' T' A S'|n os' T' I']; inversion V as [? ? ? db' ? Hi|? ? ? db' Hi|]; subst; cbn in C;
          (destruct (check _ _ db' _) as [[]|] eqn:Ck; [discriminate|]; exists db'; split; [eapply history_state; [exact SO|apply db_state_load|exact Hi]|exact Ck]). }
      destruct X as (db & St & Ck). destruct (check_panic _ _ _ _ SO CO _ _ St Ck) as (p & o & P1 & P2 & P3 & P4).
      eapply (cr_version E O fs cache _ _ _ d p o); eauto. eapply may_same; [symmetry; exact S1|symmetry; exact S2|symmetry; exact S3|]. eapply content_may; eauto.
    + exfalso. destruct Ct; inversion An as [? ? ? ? ? ? ? Hi Ck|? ? ? ? ? ? Hi Ck| |]; subst; apply check_length in Ck; lia.
Qed.

(** ** the whole run *)
Lemma supported_plain : Forall (fun a => has_char ":" a = false) supported.
Proof. repeat constructor. Qed.
Lemma known_plain a : known_as a -> has_char ":" a = false.
Proof. intros [->|[->|[->|H]]]; try reflexivity. exact (proj1 (Forall_forall _ _) supported_plain a H). Qed.
Lemma finds_plain g : has_char ":" g = false -> forall args l e, finds_all E g args l e -> forall q, In q l -> has_char ":" (fst q) = false.
Proof.
  intros G. induction 1 as [|arg args parser path pa l e rest er M P F A IH]; intros q I; [destruct I|].
  apply in_app_or in I as [I|I]; [|auto]. apply in_map_iff in I as (y & <- & _). cbn [fst]. subst pa. destruct (seqb_spec parser "") as [Q|Q]; [exact G|].
  destruct M as [(_ & M & _)|[M1 M2]]; [contradiction|exact M1].
Qed.
Lemma inputs_plain l e : known_as (o_parse_as O) -> inputs E O l e -> forall q, In q l -> split_parse_as (as_arg q) = q.
Proof.
  intros K IN [u v] I. apply split_encode. change u with (fst (u, v)). destruct IN as [Q|l e Q F].
  - destruct I as [<-|[]]. reflexivity.
  - eapply finds_plain; [|exact F|exact I]. now apply known_plain.
Qed.
Lemma parse_panic l e fs cache q : known_as (o_parse_as O) -> inputs E O l e -> In q l -> parse_lockfile E O (as_arg q) = Panic -> crash_reason E O fs cache (crashes_on E).
Proof.
  intros K IN I P. unfold parse_lockfile in P. rewrite (inputs_plain l e K IN q I) in P. destruct q as [pa path].
  destruct (seqb pa parse_as_csv_row); [destruct (from_csv_rows _ _ _ _); discriminate|].
  destruct (seqb pa parse_as_csv_file); [destruct (from_csv_file _ _ _ _); discriminate|]. unfold Lockfile.parse in P.
  destruct (find_parser path pa) as [[f|] as'] eqn:Fp; [|discriminate]. destruct (e_impl E f path) as [[ps er]|] eqn:Im; [discriminate|].
  eapply cr_lockfile; eauto.
Qed.
Theorem run_panic fs cache s' : distinct_names E O fs -> run E O (start fs cache) = (Panic, s') -> crash_reason E O fs cache (crashes_on E) \/ api_crash E O fs.
Proof.
  intros DN H. assert (H' : exists s1, run_body E O (start fs cache) = (Panic, s1)).
  { unfold run in H. destruct (run_body E O (start fs cache)) as [r s1]. destruct (o_json O); [destruct (print_json_results E s1)|]; injection H as -> _; eauto. }
  clear H s'. destruct H' as (s' & H). unfold run_body in H. destruct (o_version O) eqn:C1; [exfalso; past H u s1 Hp; discriminate|].
  destruct (o_list_eco O) eqn:C2.
  { exfalso. apply bind_panic in H as [H|(a & s2 & Ha & H)]; [revert H; apply safe_at; unfold print_known_ecosystems; sf|discriminate]. }
  pose proof (known_as_iff (o_parse_as O)) as KA. destruct (known_parse_as (o_parse_as O)); cbn [negb] in H.
  2:{ exfalso. revert H. apply safe_at. sf. }
  assert (KN : known_as (o_parse_as O)) by now apply KA.
  apply bind_panic in H as [H|(x & s1 & Hf & H)]; [exfalso; revert H; apply safe_at, safe_find_all|].
  assert (ST : steady (start fs cache) s1) by (apply still_steady; eapply keeps_at; [apply find_all_still|exact Hf]).
  assert (KF : same_cache (start fs cache) s1) by (eapply keeps_at; [apply K_find_all|exact Hf]).
  assert (IN : exists l e, inputs E O l e /\ x = (map as_arg l, e)).
  { destruct (string_dec (o_parse_as O) "csv-row") as [Q|Q].
    - exists [("csv-row", "-")], false. split; [now apply in_rows|]. unfold find_all_lockfiles, parse_as_csv_row in Hf. rewrite Q in Hf. cbn in Hf. now injection Hf as <- _.
    - destruct (find_all_spec E O SO EO (start fs cache) Q) as (l & e & s2 & F1 & F2 & _). rewrite F1 in Hf. injection Hf as <- _.
      exists l, e. split; [now apply in_found|reflexivity]. }
  destruct IN as (l & e & IN & ->). cbn [fst snd] in H. rewrite map_length in H. clear Hf.
  destruct (Nat.eqb (List.length l) 0); [exfalso; revert H; apply safe_at; sf|].
  assert (Fs : s_files s1 = fs) by (destruct ST as (_ & F & _); exact F).
  unfold run_config in H. destruct (o_list_pkgs O) eqn:C3.
  { left. apply bind_panic in H as [H|(cfg & s2 & Ha & H)]; [exfalso; revert H; apply safe_at, safe_alloc|]. unfold run_files in H.
    apply bind_panic in H as [H|(lfs & s3 & Hr & H)].
    - apply read_all_panic in H as (p & I & P). apply in_map_iff in I as (q & <- & I). eapply parse_panic; eauto.
    - exfalso. revert H. apply safe_at. apply safe_bind; [apply safe_adjust|]. intros _. apply safe_bind; [sf|]. intros h.
      apply safe_bind; [unfold load_databases; rewrite C3; sf|]. intros y. apply safe_bind; [sf|]. intros _.
      apply safe_bind; [now apply check_files_listing|]. intros z. apply safe_bind; [destruct (o_update O); [apply safe_write|sf]|]. intros _. sf. }
  assert (CH : checking O) by (repeat split; assumption).
  assert (FR : forall mode cfg s2, s_files s2 = fs -> run_files E O (map as_arg l) (mode_local mode) cfg s2 = (Panic, s') ->
     same_cache (start fs cache) s2 -> mode_of E O fs mode ->
     (forall c, mode = Same c -> cfg < List.length (s_heap s2) /\ nth cfg (s_heap s2) empty_config = c) -> crash_reason E O fs cache (crashes_on E) \/ api_crash E O fs).
  { intros mode cfg s2 F2 Hr KS M HC.
    destruct (run_files_panic fs cache l e mode cfg s2 s' CH ltac:(intros path; rewrite KS; apply ca_start) F2 IN DN Hr M HC) as [(q & I & P)|X]; [|exact X].
    left. eapply parse_panic; eauto. }
  destruct (o_no_config O) eqn:NC; cbn [negb andb] in H.
  - apply bind_panic in H as [H|(cfg & s2 & Ha & H)]; [exfalso; revert H; apply safe_at, safe_alloc|]. injection Ha as <- <-.
    eapply (FR (Same empty_config)); [|exact H|exact KF|now apply mo_none|]; [exact Fs|].
    intros c Q. injection Q as <-. cbn. rewrite app_length, nth_middle. cbn. split; [lia|reflexivity].
  - destruct (seqb_spec (o_config O) "") as [Q|Q]; cbn [negb] in H.
    + apply bind_panic in H as [H|(cfg & s2 & Ha & H)]; [exfalso; revert H; apply safe_at, safe_alloc|]. injection Ha as <- <-.
      eapply (FR Beside); [|exact H|exact KF|now apply mo_beside|discriminate]. exact Fs.
    + apply bind_panic in H as [H|(x & s2 & Hl & H)]; [exfalso; revert H; apply safe_at, safe_load_cfg|]. pose proof Hl as Hl0. apply load_cfg_spec in Hl as [K Hl].
      rewrite Fs in Hl. destruct (load_config _ _ fs _) as [er|[c errs]] eqn:LC; subst x; [exfalso; revert H; apply safe_at; sf|].
      apply bind_panic in H as [H|(cfg & s3 & Ha & H)]; [exfalso; revert H; apply safe_at, safe_alloc|]. injection Ha as <- <-.
      eapply (FR (Same c)); [|exact H|exact (same_cache_trans _ _ _ KF (keeps_at _ _ _ _ _ (K_load_cfg E _) Hl0))|eapply mo_global; eauto|].
      * cbn. rewrite <- Fs. now apply still_files.
      * intros c' Q'. injection Q' as <-. cbn. rewrite app_length, nth_middle. cbn. split; [lia|reflexivity].
Qed.
End Run.

(** ** when the servers and parsers are the modelled ones *)
Lemma reason_mono E O fs cache (P Q : ParserFn -> string -> Prop) : (forall f path, P f path -> Q f path) -> crash_reason E O fs cache P -> crash_reason E O fs cache Q.
Proof. intros H [l e pa path f pas I1 I2 I3 I4|l c d before I1 I2 I3 I4 I5 I6 I7|l c d p o I1 I2 I3 I4 I5 I6]; [eapply cr_lockfile|eapply cr_unchanged|eapply cr_version]; eauto. Qed.
Lemma bytes_crash E D fls : IterOk (e_iter E) -> parses_bytes E D fls -> forall f path, crashes_on E f path -> crash_cause D fls path f.
Proof.
  intros IT (depth & text & L & Q & FIN & LE) f path C. unfold crashes_on in C. rewrite Q in C. unfold impl in C.
  destruct (returns D (e_iter E) fls depth L f path FIN LE) as (r & R). rewrite R in C. destruct r as [[]|]; try discriminate.
  eapply crash_only; eauto.
Qed.
Lemma served_length post get E O l d a : SorterOk (e_sort E) -> served post get E -> fits O l -> api_of E O d a -> (1 <= o_batch O)%Z ->
  forall k, e_api E k a (lf_pkgs l) <> Panic /\ forall rs, e_api E k a (lf_pkgs l) = Ok (inr rs) -> List.length rs = List.length (lf_pkgs l).
Proof.
  intros HS SV F A B k. destruct (SV k a (lf_pkgs l)) as (posts & gets & C). pose proof (api_fits _ _ _ _ _ F A B) as Ok'. split.
  - intros Q. rewrite Q in C. eapply api_check_no_panic; eauto.
  - intros rs Q. rewrite Q in C. apply api_check_ok in C; [|exact HS|exact Ok']. destruct C as (bs & an & fe & _ & _ & _ & _ & _ & _ & _ & L & R). 
    rewrite <- L. symmetry. eapply ApiRunProofs.Forall2_same_length; eauto.
Qed.
Theorem run_panic_served post get E O fs cache s' : SorterOk (e_sort E) -> ComparesOk (e_sort E) -> IterOk (e_iter E) -> EntriesOk E ->
  served post get E -> (forall l c d, uses E O fs l c d -> fits O l) -> distinct_names E O fs ->
  run E O (start fs cache) = (Panic, s') -> crash_reason E O fs cache (crashes_on E).
Proof.
  intros HS HC HI HE SV FI DN H. destruct (run_panic E O HS HC HI HE fs cache s' DN H) as [X|(l & c & d & a & k & CH & U & T & A & B & X)]; [exact X|exfalso].
  destruct (served_length post get E O l d a HS SV (FI _ _ _ U) A B k) as [N L]. destruct X as [X|(rs & X & Y)]; [contradiction|]. apply L in X. lia.
Qed.

(** ** the causes do crash the run *)
Lemma not_ok {A} (r : res A * St) : (forall a s', r <> (Ok a, s')) -> fst r = Panic.
Proof. destruct r as [[a|] s]; [intros H; now destruct (H a s)|reflexivity]. Qed.
Lemma parse_breaks E O path pa f pas : find_parser path pa = (Some f, pas) -> e_impl E f path = Panic -> split_parse_as (as_arg (pa, path)) = (pa, path) ->
  parse_lockfile E O (as_arg (pa, path)) = Panic.
Proof.
  intros F P S. unfold parse_lockfile. rewrite S. destruct (seqb_spec pa parse_as_csv_row) as [->|_]; [discriminate|].
  destruct (seqb_spec pa parse_as_csv_file) as [->|_]; [discriminate|]. unfold Lockfile.parse. now rewrite F, P.
Qed.
Theorem lockfile_crash E O fs cache : SorterOk (e_sort E) -> IterOk (e_iter E) -> EntriesOk E -> known_as (o_parse_as O) ->
  forall l e pa path f pas, inputs E O l e -> In (pa, path) l -> find_parser path pa = (Some f, pas) -> e_impl E f path = Panic ->
  listing O \/ checking O /\ config_found E O fs path -> fst (run E O (start fs cache)) = Panic.
Proof.
  intros HS HI HE KN l e pa path f pas IN I F P M. apply not_ok. intros code s' H.
  pose proof (inputs_plain E O l e KN IN _ I) as SP. pose proof (parse_breaks E O path pa f pas F P SP) as PB.
  destruct M as [M|[M CF]].
  - pose proof (run_list E O HS HI HE fs cache code s' M H) as Out. destruct Out as [N|e' K IN'|l' e' rs code K IN' N LA Sh Cd Ms]; [contradiction| |].
    + destruct (inputs_unique _ _ _ _ _ _ IN IN') as [-> _]. destruct I.
    + destruct (inputs_unique _ _ _ _ _ _ IN IN') as [<- _]. clear - LA I PB. induction LA as [|q l lf er rs Q LA IH|q l lf rs Q LA IH]; [destruct I| |];
        (destruct I as [->|I]; [congruence|auto]).
  - pose proof (run_outcome E O HS HI HE fs cache code s' M H) as Out. destruct Out as [N|e' K IN'|l' e' er K IN' N N1 N2 L _ _|l' e' mode rs names ds code K IN' N Ss Ex Mi]; [contradiction| | |].
    + destruct (inputs_unique _ _ _ _ _ _ IN IN') as [-> _]. destruct I.
    + destruct CF as [C|[[_ (c & C)]|[C _]]]; congruence.
    + destruct (inputs_unique _ _ _ _ _ _ IN IN') as [<- _]. destruct Ss as [S1 S2 _ _ _ _ _ _].
      destruct (EndProofs.Forall2_left _ _ _ _ S2 (in_map as_arg _ _ I)) as (r & _ & R). destruct R as [C|c lf er C Q|c lf C Q]; [|congruence|congruence].
      rewrite SP in C. cbn [snd] in C. inversion C as [| |er C1]; subst. inversion S1 as [|N1 N2|]; subst.
      destruct CF as [X|[[X _]|[_ (c & X)]]]; congruence.
Qed.
Lemma useless_none before : useless before -> match before with Some content => fst (dec_cache content) | None => None end = None.
Proof.
  destruct before as [b|]; [|reflexivity]. cbn [useless]. intros U. unfold dec_cache. destruct (Json.parse b) as [j|] eqn:Q; [|reflexivity].
  apply parse_iff in Q. now rewrite (U j Q).
Qed.
Lemma unchanged_load E O before d names : useless before -> dc_type d = "zip" -> o_offline O = false -> says_unchanged E (dc_url d) ->
  exists reqs, load_db (e_world E) before d (o_offline O) (o_batch O) names = (Panic, None, reqs).
Proof.
  intros U T Off (et & dt & b & A). unfold load_db. rewrite T, seqb_refl, Off. unfold zip_load, fetch_zip. rewrite (useless_none _ U). cbv zeta. rewrite A. cbn. eauto.
Qed.
Lemma load_writes E O before d names r content reqs : load_db (e_world E) before d (o_offline O) (o_batch O) names = (r, Some content, reqs) -> dc_type d = "zip".
Proof.
  unfold load_db. destruct (seqb_spec (dc_type d) "zip") as [T|_]; [auto|].
  destruct (seqb (dc_type d) "api"); [destruct (new_api_db _ _ _ _ _ _); discriminate|]. destruct (seqb (dc_type d) "dir"); [destruct (dir_load _ _ _ _ _ _); discriminate|discriminate].
Qed.
Lemma stays_useless E O cache url : o_offline O = false -> says_unchanged E url -> own_cache E url -> useless (cache (e_cache_path E url)) ->
  forall before, cached E O cache (e_cache_path E url) before -> useless before.
Proof.
  intros Off SU OC U before C. induction C as [|names c before r content reqs Q C IH L]; [exact U|exfalso].
  pose proof (load_writes _ _ _ _ _ _ _ _ L) as T. apply OC in Q. subst url. destruct (unchanged_load E O before c names IH T Off SU) as (rq & X). congruence.
Qed.
Theorem unchanged_crash E O fs cache : SorterOk (e_sort E) -> IterOk (e_iter E) -> EntriesOk E -> known_as (o_parse_as O) -> checking O -> distinct_names E O fs ->
  forall l c d, uses E O fs l c d -> dc_type d = "zip" -> o_offline O = false -> says_unchanged E (dc_url d) -> own_cache E (dc_url d) ->
  useless (cache (e_cache_path E (dc_url d))) -> fst (run E O (start fs cache)) = Panic.
Proof.
  intros HS HI HE KN CH DN l c d U T Off SU OC UL. apply not_ok. intros code s' H.
  pose proof (run_outcome E O HS HI HE fs cache code s' CH H) as Out.
  pose proof U as (l1 & e1 & m1 & rs1 & I1 & M1 & R1 & U1 & A1).
  destruct Out as [N|e' K IN'|l' e' er K IN' N N1 N2 L _ _|l' e' mode rs names ds code K IN' N Ss Ex Mi]; [contradiction| | |].
  - destruct (inputs_unique _ _ _ _ _ _ I1 IN') as [-> _]. inversion R1; subst. destruct U1.
  - inversion M1; subst; congruence.
  - destruct Ss as [S1 S2 S3 S4 S5 S6 S7 S8]. destruct (uses_in _ _ _ _ _ _ _ _ _ _ IN' S1 S2 U) as [UI As].
    assert (Hd : In (identifier d) (map identifier (loads (s_trace s')))) by (apply S4; eauto 6).
    apply in_map_iff in Hd as (d' & Id & D'). destruct (S8 d' D') as (l2 & c2 & U2 & As2).
    assert (Us' : uses E O fs l2 c2 d') by (exists l', e', mode, rs; auto).
    destruct (same_identifier _ _ _ _ _ _ _ _ _ DN U Us' (eq_sym Id)) as (Q1 & Q2 & Q3).
    assert (LA : exists o, loads_as E O cache names d' o).
    { clear - S6 D'. induction S6 as [|x cs db ds fl L S6 IH|x cs er ds fl L S6 IH]; [destruct D'| |]; (destruct D' as [->|D']; [eauto|auto]). }
    destruct LA as (o & before & w & rq & C & L). rewrite <- Q2 in C. pose proof (stays_useless E O cache (dc_url d) Off SU OC UL _ C) as Ub.
    rewrite Q1 in T. rewrite Q2 in SU. destruct (unchanged_load E O before d' names Ub T Off SU) as (rq' & X). congruence.
Qed.

Lemma trips_same sem o o' p : osv_same o o' -> trips sem o p -> trips sem o' p.
Proof.
  intros [_ _ _ _ _ _ _ Sa] (b & a & t & r & rs & Q & NB & EC & NM & NV & RR & VT & NE & SK). rewrite Q in Sa.
  apply Forall2_app_inv_l in Sa as (b' & t' & Sb & St & Qo). inversion St as [|x a' y t'' (Pa & Va & Ra) St']; subst. rewrite RR in Ra.
  inversion Ra as [|x r' y rs' [Rt Re] Rs]; subst. exists b', a', t'', r', rs'. split; [exact Qo|]. rewrite <- Pa, <- Va. split.
  - intros z Z. destruct (EndProofs.Forall2_right _ _ _ _ Sb Z) as (z0 & Z0 & Pz & _). rewrite <- Pz. now apply NB.
  - split; [exact EC|]. split; [exact NM|]. split; [exact NV|]. split; [now symmetry|]. split; [unfold version_typed in *; now rewrite <- Rt|]. split; [|exact SK].
    intros Z. rewrite Z in Re. apply Permutation_sym, Permutation_nil in Re. contradiction.
Qed.
Lemma trips_panic S sem o p : trips sem o p -> is_affected S sem o p = Panic.
Proof.
  intros (b & a & t & r & rs & Q & NB & EC & NM & NV & RR & VT & NE & SK). unfold is_affected. rewrite Q. clear Q.
  assert (X : affected_loop S sem (b ++ a :: t) p = Panic); [|now rewrite X]. induction b as [|x b IH]; cbn [app affected_loop].
  - assert (E1 : ecosystems_equal (op_eco (a_pkg a)) (p_eco p) = true) by now apply ecosystems_equal_spec. rewrite E1.
    apply match_name_fun in NM. rewrite <- NM, seqb_refl. cbn [andb]. rewrite RR. cbn [List.length Nat.eqb andb].
    destruct (mem (p_version p) (a_versions a)) eqn:M; [apply mem_iff in M; contradiction|]. cbn [affects_version].
    assert (T : negb (seqb (r_type r) TypeEcosystem) && negb (seqb (r_type r) TypeSemver) = false) by now apply version_typed_iff. rewrite T.
    assert (C : contains_version S sem r p = Panic); [|now rewrite C]. unfold contains_version. rewrite T. destruct (r_events r); [contradiction|]. cbn [List.length Nat.eqb]. now rewrite SK.
  - rewrite IH by (intros z Z; apply NB; now right). destruct (ecosystems_equal _ _ && seqb _ _) eqn:M; [|reflexivity]. exfalso.
    apply andb_prop in M as [M1 M2]. apply (NB x (or_introl eq_refl)). split; [now apply ecosystems_equal_spec|]. apply match_name_fun. symmetry. now apply seqb_eq.
Qed.
Lemma trips_hits sem o p : has_char ":" (p_eco p) = false -> trips sem o p -> hits (p_eco p +s+ "-" +s+ p_name p) o <> 0.
Proof.
  intros Hc (b & a & t & r & rs & Q & _ & EC & NM & _) E.
  assert (In a (filter (fun a => seqb (store_hash a) (p_eco p +s+ "-" +s+ p_name p)) (o_affected o))).
  { apply filter_In. split; [rewrite Q; apply in_elt|]. apply seqb_eq. unfold store_hash. apply match_name_fun in NM. rewrite <- NM. f_equal.
    destruct EC as (ba & sa & bb & sb & P1 & P2 & Eb & _). unfold normalized_ecosystem. destruct (eco_parts_fun _ _ _ _ _ P1 (eco_parts_cut _)) as [<- _].
    destruct (eco_parts_fun _ _ _ _ _ P2 (no_suffix_parts _ Hc)) as [<- _]. exact Eb. }
  unfold hits in E. destruct (filter _ _); [contradiction|discriminate].
Qed.
Lemma trips_keep sem o p names : names = [] \/ In (p_name p) names -> trips sem o p -> keep names o = true.
Proof.
  intros [->|Hn] (b & a & t & r & rs & Q & _ & _ & NM & _); [reflexivity|]. unfold keep. apply orb_true_iff. right. unfold might_affect_packages. apply existsb_exists.
  exists a. split; [rewrite Q; apply in_elt|]. apply mem_iff. apply match_name_fun in NM. now rewrite <- NM.
Qed.
Lemma bucket_trips S sem p os : SorterOk S -> forall addrs h acc i, Forall2 osv_same os h -> In i addrs -> i < List.length os ->
  o_withdrawn (nth i os no_osv) = None -> trips sem (nth i os no_osv) p -> bucket_loop S sem p h addrs acc = Panic.
Proof.
  intros HS. induction addrs as [|j addrs IH]; intros h acc i F I L W T; [destruct I|]. cbn [bucket_loop].
  assert (Hv : forall k, osv_same (nth k os no_osv) (deref h k)) by (intros k; apply (MemDBProofs.Forall2_nth osv_same); [exact F|apply osv_same_refl]).
  destruct I as [->|I].
  - assert (W' : o_withdrawn (deref h i) = None) by (destruct (Hv i); congruence). rewrite W'. now rewrite (trips_panic S sem _ p (trips_same _ _ _ _ (Hv i) T)).
  - destruct (o_withdrawn (deref h j)); [eapply IH; eauto|]. destruct (is_affected S sem (deref h j) p) as [[b v']|] eqn:Q; [|reflexivity]. cbn [rbind].
    assert (F' : Forall2 osv_same os (heap_set h j v')).
    { apply Forall2_heap_set; [exact F|]. eapply osv_same_trans; [apply Hv|]. eapply is_affected_frame; eauto. }
    destruct (b && negb (includes acc v')); eapply IH; eauto.
Qed.
Lemma affecting_trips S sem names os db p o : SorterOk S -> db_state names os db -> names = [] \/ In (p_name p) names -> has_char ":" (p_eco p) = false ->
  In o os -> o_withdrawn o = None -> trips sem o p -> vulnerabilities_affecting S sem db p = Panic.
Proof.
  intros HS [Dh Dv _] Hn Hc I W T. rewrite affecting_as_loop, Dv. destruct (load_all_spec names os) as (_ & _ & Hb). rewrite Hb.
  assert (K : In o (filter (keep names) os)) by (apply filter_In; split; [exact I|]; eapply trips_keep; eauto).
  destruct (In_nth _ _ no_osv K) as (i & L & N). rewrite (bucket_trips S sem p _ HS _ _ _ i Dh); rewrite ?N; auto.
  apply block_in. split; [lia|]. rewrite Nat.sub_0_r, N. now apply (trips_hits sem).
Qed.
(** a version that cannot be compared is never passed over *)
Theorem version_crash E O fs cache : SorterOk (e_sort E) -> IterOk (e_iter E) -> EntriesOk E -> checking O -> distinct_names E O fs ->
  forall l c d p o, uses E O fs l c d -> In p (lf_pkgs l) -> has_char ":" (p_eco p) = false -> must_hold E O cache d o -> o_withdrawn o = None ->
  trips (e_sem E) o p -> forall code s', run E O (start fs cache) = (Ok code, s') -> code <> 0%Z /\ code <> 1%Z.
Proof.
  intros HS HI HE CH DN l c d p o U P Col MH W T code s' H.
  destruct (Z.eq_dec code 0) as [C0|C0]; [|destruct (Z.eq_dec code 1) as [C1|C1]; [|auto]]; exfalso;
  pose proof (run_outcome E O HS HI HE fs cache code s' CH H) as Out;
  (destruct Out as [| e | | l0 e mode rs names ds code K IN N Ss Ex Mi]; [discriminate|destruct (negb e && _); discriminate|discriminate|]);
  (assert (HF : failures (s_trace s') = []) by (destruct Ex; auto; discriminate));
  destruct Ss as [S1 S2 S3 S4 S5 S6 S7 S8]; (destruct (uses_in _ _ _ _ _ _ _ _ _ _ IN S1 S2 U) as [UI As]);
  (assert (Hd : In (identifier d) (map identifier (loads (s_trace s')))) by (apply S4; eauto 6));
  apply in_map_iff in Hd as (d' & Id & D'); destruct (S8 d' D') as (l' & c' & U1 & As1);
  (assert (Us' : uses E O fs l' c' d') by (exists l0, e, mode, rs; auto));
  destruct (same_identifier _ _ _ _ _ _ _ _ _ DN U Us' (eq_sym Id)) as (Q1 & Q2 & Q3);
  apply (must_same _ _ _ _ _ _ Q1 Q2 Q3) in MH;
  destruct (proj1 (loaded_in _ _ _ _ _ _ _ S6) d' D' HF) as (db & DB1 & DB2);
  (destruct (loads_content _ _ _ _ _ _ DB2) as [Iq [[T' _]|(os & Ct)]]; [destruct MH; congruence|]);
  pose proof (content_must _ _ _ _ _ _ _ _ Ct MH) as Io;
  destruct (EndProofs.Forall2_left _ _ _ _ S7 UI) as (ck & K1 & k & ce & (Ef1 & Ef2 & Ef3) & Co); destruct Co as [used ans rows Us An Tr];
  (assert (Iu : In db used) by (apply (selects_all _ _ _ _ Us DB1); rewrite Iq, Id; apply Ef3; eauto));
  destruct (EndProofs.Forall2_left _ _ _ _ An Iu) as (an & An1 & An2); destruct (In_nth_error _ _ P) as (i & Ni);
  (assert (Hn : names = [] \/ In (p_name p) names) by (right; exact (S3 _ _ _ UI P)));
  (destruct Ct as [n date entries os' T' Ar Ao|n os' T' I']; inversion An2; subst;
      match goal with Hh : history _ _ _ ?dbx, Hc : check _ _ ?dbx _ = Ok _ |- _ =>
        apply (history_state _ _ _ _ _ _ HS (db_state_load _ _)) in Hh;
        destruct (check_nth _ _ _ _ HS _ _ _ _ Hh Hc i p Ni) as (db1 & db2 & vs & Y1 & Y2 & Y3);
        rewrite (affecting_trips _ _ _ _ _ _ o HS Y1 Hn Col Io W T) in Y2; discriminate
      end).
Qed.
