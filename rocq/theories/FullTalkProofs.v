From Verif Require FitProofs.
From Verif Require Import GoStr GoStrFacts GoSort GoMap Types Osv OsvSpec OsvProofs MemDB MemDBSpec MemDBProofs Path Api ZipDB ZipSpec ZipProofs DirDB DirDBSpec DirDBProofs DbConfig Configer Lockfile Csv Report Main MainSpec MainTrace MainProofs DiscoverProofs OfflineProofs EndProofs Warnings WarningsSpec WarningsProofs FullRun FitSpec FullRunSpec FullRunProofs.

(** ** what a check says *)
Lemma names_same a a' pkg : affected_same a a' -> names a pkg -> names a' pkg.
Proof. intros (P & _) N. unfold names in *. now rewrite <- P. Qed.
Lemma bare_same a a' : affected_same a a' -> bare a -> bare a'.
Proof. intros (_ & W & R) [B1 B2]. split; [|congruence]. rewrite B1 in R. now inversion R. Qed.
Lemma affected_same_sym a a' : affected_same a a' -> affected_same a' a.
Proof.
  intros (P & W & R). split; [congruence|]. split; [congruence|]. clear - R. induction R as [|r r' l l' [T Q] F IH]; constructor; auto. split; [congruence|now apply Permutation_sym].
Qed.
Lemma bare_some pkg l n : bare_entries pkg l n -> n <> 0%nat -> exists a, In a l /\ names a pkg /\ bare a.
Proof. induction 1 as [|a l n N B H IH|a l n N H IH]; intros Z; [contradiction|exists a; cbn; auto|]. destruct (IH Z) as (x & X1 & X2). exists x. cbn. auto. Qed.
Lemma bare_zero pkg l : bare_entries pkg l 0 -> forall a, In a l -> names a pkg -> ~ bare a.
Proof. remember 0%nat as z. induction 1 as [|a l n N B H IH|a l n N H IH]; intros x X Nx Bx; [destruct X|discriminate|]. destruct X as [<-|X]; [auto|]. eapply IH; eauto. Qed.
Lemma says_blank S sem o0 v pkg : osv_same o0 v -> forall t, In t (is_affected_says S sem v pkg) ->
  exists a, In a (o_affected o0) /\ names a pkg /\ bare a /\ t = bare_notice (o_id o0).
Proof.
  intros Q t I. destruct (affected_told S sem v pkg) as (pre & post & n & A & B & Sy & _). rewrite Sy in I.
  assert (n <> 0%nat) by (intros ->; destruct I). apply repeat_spec in I. destruct (bare_some _ _ _ B H) as (a & A1 & A2 & A3).
  assert (Ia : In a (o_affected v)) by (rewrite A; apply in_or_app; auto). destruct Q.
  destruct (Forall2_right _ _ _ _ os_affected Ia) as (a0 & I0 & S0). apply affected_same_sym in S0. exists a0. split; [exact I0|]. split; [eapply names_same; eauto|].
  split; [eapply bare_same; eauto|]. now rewrite os_id.
Qed.
Lemma bucket_blank S sem pkg os : SorterOk S -> forall addrs h, Forall2 osv_same os h -> (forall i, In i addrs -> i < List.length os) ->
  Forall (blank os [pkg]) (bucket_says S sem pkg h addrs).
Proof.
  intros HS. induction addrs as [|i addrs IH]; intros h F L; cbn [bucket_says]; [constructor|].
  assert (L' : forall j, In j addrs -> j < List.length os) by (intros j J; apply L; now right).
  assert (Hv : osv_same (nth i os no_osv) (deref h i)) by (apply (MemDBProofs.Forall2_nth osv_same); [exact F|apply osv_same_refl]).
  destruct (o_withdrawn (deref h i)) eqn:W; [now apply IH|]. apply Forall_app. split.
  - apply Forall_forall. intros t T. destruct (says_blank _ _ _ _ _ Hv t T) as (a & A1 & A2 & A3 & ->). exists pkg, (nth i os no_osv), a. cbn [In].
    split; [auto|]. split; [apply nth_In, L; now left|]. split; [destruct Hv; congruence|]. auto.
  - destruct (is_affected S sem (deref h i) pkg) as [[b v']|] eqn:Q; [|constructor]. apply IH; [|exact L'].
    apply Forall2_heap_set; [exact F|]. eapply osv_same_trans; [exact Hv|]. eapply is_affected_frame; eauto.
Qed.
Lemma blank_incl os os' pkgs pkgs' t : incl os os' -> incl pkgs pkgs' -> blank os pkgs t -> blank os' pkgs' t.
Proof. intros I J (p & o & a & P & Q & R). exists p, o, a. auto. Qed.
Lemma affecting_says_loop S sem db pkg : affecting_says S sem db pkg = bucket_says S sem pkg (m_heap db) (get_or (p_eco pkg +s+ "-" +s+ p_name pkg) (m_vulns db)).
Proof. unfold affecting_says, get_or. now destruct (map_get _ _). Qed.
Lemma check_blank S sem names os : SorterOk S -> forall pkgs db, db_state names os db -> Forall (blank os pkgs) (check_says S sem db pkgs).
Proof.
  intros HS. induction pkgs as [|p pkgs IH]; intros db D; cbn [check_says]; [constructor|]. apply Forall_app. split.
  - destruct D as [Dh Dv _]. rewrite affecting_says_loop, Dv. destruct (load_all_spec names os) as (_ & _ & Hb). rewrite Hb.
    eapply Forall_impl; [|apply (bucket_blank S sem p _ HS _ _ Dh)].
    + intros t. apply blank_incl; [intros x X; now apply filter_In in X|]. intros x [<-|[]]. now left.
    + intros i I. apply block_in in I. lia.
  - destruct (vulnerabilities_affecting S sem db p) as [[vs db1]|] eqn:Q; [|constructor]. eapply Forall_impl; [|eapply IH, affecting_frame; eauto].
    intros t. apply blank_incl; [apply incl_refl|]. intros x X. now right.
Qed.
(** completeness, for a check that finishes *)
Lemma says_bare S sem o0 v pkg a : osv_same o0 v -> In a (o_affected o0) -> names a pkg ->
  (forall a, In a (o_affected o0) -> names a pkg -> bare a) -> In (bare_notice (o_id o0)) (is_affected_says S sem v pkg).
Proof.
  intros Q Ia Na All. destruct (affected_told S sem v pkg) as (pre & post & n & A & B & -> & _ & T). destruct Q. rewrite os_id.
  assert (post = []) as ->.
  { destruct T as [T|(b & post' & T & Nb & NB)]; [exact T|]. exfalso. apply NB.
    assert (Ib : In b (o_affected v)) by (rewrite A, T; apply in_or_app; right; now left).
    destruct (Forall2_right _ _ _ _ os_affected Ib) as (b0 & I0 & S0). eapply bare_same; [exact S0|]. apply All; [exact I0|]. eapply names_same; [apply affected_same_sym; exact S0|exact Nb]. }
  rewrite app_nil_r in A. destruct n as [|n]; [|now left]. exfalso.
  destruct (Forall2_left _ _ _ _ os_affected Ia) as (a' & I' & S'). rewrite A in I'. eapply (bare_zero _ _ B a'); [exact I'|eapply names_same; eauto|].
  eapply bare_same; [exact S'|]. now apply All.
Qed.
Lemma bucket_mentions S sem pkg os : SorterOk S -> forall addrs h acc vs h' i, Forall2 osv_same os h ->
  bucket_loop S sem pkg h addrs acc = Ok (vs, h') -> In i addrs -> let o := nth i os no_osv in o_withdrawn o = None ->
  (exists a, In a (o_affected o) /\ names a pkg) -> (forall a, In a (o_affected o) -> names a pkg -> bare a) ->
  In (bare_notice (o_id o)) (bucket_says S sem pkg h addrs).
Proof.
  intros HS. induction addrs as [|j addrs IH]; intros h acc vs h' i F H I o W (a & A1 & A2) All; [destruct I|]. cbn [bucket_loop bucket_says] in *.
  assert (Hv : forall k, osv_same (nth k os no_osv) (deref h k)) by (intros k; apply (MemDBProofs.Forall2_nth osv_same); [exact F|apply osv_same_refl]).
  destruct I as [->|I].
  - assert (W' : o_withdrawn (deref h i) = None) by (destruct (Hv i); fold o in os_withdrawn; congruence). rewrite W'. apply in_or_app. left.
    eapply says_bare; eauto.
  - destruct (o_withdrawn (deref h j)); [eapply IH; eauto|]. apply in_or_app. right.
    destruct (is_affected S sem (deref h j) pkg) as [[b v']|] eqn:Q; [|discriminate]. cbn [rbind] in H.
    assert (F' : Forall2 osv_same os (heap_set h j v')).
    { apply Forall2_heap_set; [exact F|]. eapply osv_same_trans; [apply Hv|]. eapply is_affected_frame; eauto. }
    destruct (b && negb (includes acc v')); eapply IH; eauto.
Qed.
Lemma names_hits o pkg a : has_char ":" (p_eco pkg) = false -> In a (o_affected o) -> names a pkg -> hits (p_eco pkg +s+ "-" +s+ p_name pkg) o <> 0.
Proof.
  intros Hc Ha [H1 H2] E.
  assert (In a (filter (fun a => seqb (store_hash a) (p_eco pkg +s+ "-" +s+ p_name pkg)) (o_affected o))).
  { apply filter_In. split; [exact Ha|]. apply seqb_eq. unfold store_hash. apply match_name_fun in H2. rewrite <- H2. f_equal.
    destruct H1 as (ba & sa & bb & sb & P1 & P2 & Eb & _). unfold normalized_ecosystem. destruct (eco_parts_fun _ _ _ _ _ P1 (eco_parts_cut _)) as [<- _].
    destruct (eco_parts_fun _ _ _ _ _ P2 (no_suffix_parts _ Hc)) as [<- _]. exact Eb. }
  unfold hits in E. destruct (filter _ (o_affected o)); [contradiction|discriminate].
Qed.
Lemma names_keep o pkg a ns : ns = [] \/ In (p_name pkg) ns -> In a (o_affected o) -> names a pkg -> keep ns o = true.
Proof.
  intros [->|Hn] Ha [_ H2]; [reflexivity|]. unfold keep. apply orb_true_iff. right. unfold might_affect_packages. apply existsb_exists.
  exists a. split; [exact Ha|]. apply mem_iff. apply match_name_fun in H2. now rewrite <- H2.
Qed.
Lemma check_mentions S sem ns os o : SorterOk S -> In o os -> o_withdrawn o = None -> forall pkgs db rs db', db_state ns os db ->
  check S sem db pkgs = Ok (rs, db') -> forall p a, In p pkgs -> ns = [] \/ In (p_name p) ns -> has_char ":" (p_eco p) = false ->
  In a (o_affected o) -> names a p -> (forall a, In a (o_affected o) -> names a p -> bare a) -> In (bare_notice (o_id o)) (check_says S sem db pkgs).
Proof.
  intros HS Io W. induction pkgs as [|q pkgs IH]; intros db rs db' D H p a P Hn Hc Ia Na All; [destruct P|]. cbn [check check_says] in *.
  destruct (vulnerabilities_affecting S sem db q) as [[vs db1]|] eqn:Q; [|discriminate]. cbn [rbind] in H. apply in_or_app. destruct P as [<-|P].
  - left. destruct D as [Dh Dv _]. rewrite affecting_says_loop. rewrite affecting_as_loop in Q. rewrite Dv in Q |- *. destruct (load_all_spec ns os) as (_ & _ & Hb). rewrite Hb in Q |- *.
    destruct (bucket_loop _ _ _ _ _ _) as [[vs0 h']|] eqn:Bq; [|discriminate].
    assert (K : In o (filter (keep ns) os)) by (apply filter_In; split; [exact Io|]; eapply names_keep; eauto).
    destruct (In_nth _ _ no_osv K) as (i & L & N). rewrite <- N. eapply (bucket_mentions S sem q _ HS _ _ _ _ _ i Dh Bq); rewrite ?N; eauto.
    apply block_in. split; [lia|]. rewrite Nat.sub_0_r, N. eapply names_hits; eauto.
  - right. destruct (check S sem db1 pkgs) as [[rest db2]|] eqn:C; [|discriminate]. eapply IH; eauto. eapply affecting_frame; eauto.
Qed.

Section Run.
Variable E : Env.
Variable V : Voice.
Variable O : Opts.
Hypothesis HS : SorterOk (e_sort E).
Hypothesis EO : EntriesOk E.
(** ** what a load says *)
Lemma first_told c file : first_words E V c file (load_says_first E V c file).
Proof.
  unfold load_says_first. destruct (seqb_spec (dc_type c) "zip") as [T|T]; [|now constructor]. unfold cache_says. destruct file as [content|]; [|now constructor].
  pose proof (FitProofs.cache_takes content) as T'. fold (of_type cache_type content) in T'. destruct (snd (dec_cache content)) eqn:D; constructor; try exact T; [intros H; apply T' in H; discriminate|now apply T'].
Qed.
Lemma cache_words_of c w : cache_words E V c w (write_says (v_write_err V (e_cache_path E (dc_url c))) (e_cache_path E (dc_url c)) w).
Proof. unfold write_says. destruct w as [x|]; [|constructor]. destruct (v_write_err V _) eqn:Q; now constructor. Qed.
Lemma dir_loaded ns url wd db : dir_load (w_dec_osv (e_world E)) (w_parse_uri (e_world E)) (w_tree (e_world E)) url wd ns = inr db ->
  exists u os, (exists r, url = "file:" +s+ r) /\ w_parse_uri (e_world E) url = Some u /\ db = load_all ns os
    /\ let p := path_join [trim_prefix (u_path u) "/"; wd] in ~ vanished (w_tree (e_world E) p)
    /\ forall o, In o os <-> exists q, advisory_at (w_dec_osv (e_world E)) (path_base p) (w_tree (e_world E) p) q o.
Proof.
  unfold dir_load. intros D. destruct (has_prefix url "file:") eqn:P; cbn [negb] in D; [|discriminate]. destruct (w_parse_uri (e_world E) url) as [u|] eqn:U; [|discriminate].
  set (p := path_join [trim_prefix (u_path u) "/"; wd]) in *.
  assert (G : forall q, ~ at_path (w_tree (e_world E) p) q NGone).
  { intros q Q. rewrite (visits_gone (w_dec_osv (e_world E)) ns _ (ex_intro _ q Q)) in D. discriminate. }
  rewrite (visits_listing (w_dec_osv (e_world E)) ns _ G) in D. injection D as <-.
  exists u, (map snd (DirDBProofs.listing (w_dec_osv (e_world E)) (path_base p) (w_tree (e_world E) p))). split; [now apply has_prefix_iff|]. split; [reflexivity|]. split; [reflexivity|].
  cbv zeta. split; [intros [q Q]; exact (G q Q)|]. intros o. rewrite in_map_iff. split.
  - intros ([q o'] & <- & I). apply listing_at in I. exists q. auto.
  - intros (q & I). exists (q, o). split; [reflexivity|]. now apply listing_at.
Qed.
(** the shape of what a directory says, sorted or not *)
Lemma dir_shape dec pu fs url wd u : (exists r, url = "file:" +s+ r) -> pu url = Some u ->
  let p := path_join [trim_prefix (u_path u) "/"; wd] in ~ vanished (fs p) ->
  exists ts, dir_load_says (v_json_err V) (v_read_err V) dec pu fs url wd = map snd ts ++ (match ts with [] => [] | _ => [newline] end)
    /\ (forall q t, In (q, t) ts <-> dir_notice (v_json_err V) (v_read_err V) dec (path_base p) (fs p) q t)
    /\ (sorted_node (fs p) -> NoDup (map fst ts) /\ StronglySorted path_lt (map fst ts)).
Proof.
  intros R U p G. exists (notices (v_json_err V) (v_read_err V) dec (path_base p) (fs p)). split; [|split; [apply notices_at|]].
  - unfold dir_load_says. apply has_prefix_iff in R. rewrite R, U. cbn [negb]. fold p. rewrite walk_says by (intros q Q; apply G; now exists q).
    rewrite map_length. destruct (notices _ _ _ (path_base p) (fs p)); reflexivity.
  - intros S. pose proof (notices_sorted (v_json_err V) (v_read_err V) dec _ S (path_base p)) as K. split; [now apply sorted_nodup|exact K].
Qed.
Lemma last_told c ns file r w reqs : load_db (e_world E) file c (o_offline O) (o_batch O) ns = (r, w, reqs) ->
  last_words E V O c ns file r w (load_says_then E V O c file).
Proof.
  unfold load_db, load_says_then. destruct (seqb_spec (dc_type c) "zip") as [T|T].
  - destruct (zip_load _ _ _ _ _ _ _ _) as [[r0 w0] q0] eqn:Z. intros [= <- <- <-]. set (path := e_cache_path E (dc_url c)).
    assert (FW : f_write (fetch_zip (dc_url c) (o_offline O) file (w_answer (e_world E))) = w0).
    { unfold zip_load in Z. cbv zeta in Z. congruence. }
    destruct r0 as [[e|[db date]]|]; cbn [rbind].
    + rewrite FW. assert (X : match f_result (fetch_zip (dc_url c) (o_offline O) file (w_answer (e_world E))) with
         | Ok (inr (body, _)) => match w_unzip (e_world E) body with Some entries => flat_map (zip_entry_says (v_json_err V) (v_read_err V) (w_dec_osv (e_world E)) (dc_wd c)) entries | None => [] end
         | _ => [] end = []).
      { unfold zip_load in Z. destruct (fetch_zip _ _ _ _) as [fr fw fq]. cbn [f_result f_write f_reqs rbind] in Z |- *. destruct fr as [[e1|[b d]]|]; [reflexivity| |reflexivity]. cbn [rbind] in Z. destruct (w_unzip (e_world E) b); [discriminate|reflexivity]. }
      cbv zeta. rewrite X, app_nil_r. apply lw_zip_fails; [exact T|discriminate|]. apply cache_words_of.
    + destruct (zip_told (v_json_err V) (v_read_err V) (v_write_err V path) _ _ path _ _ _ _ _ _ _ _ _ _ Z) as (body & entries & os & ts & F & U & -> & L & Q).
      cbv zeta. rewrite F, U, FW. fold path. unfold zip_load_says in Q. cbv zeta in Q. rewrite F, U, FW in Q. apply app_inv_head in Q. rewrite Q.
      eapply lw_zip; eauto. apply cache_words_of.
    + rewrite FW. assert (X : match f_result (fetch_zip (dc_url c) (o_offline O) file (w_answer (e_world E))) with
         | Ok (inr (body, _)) => match w_unzip (e_world E) body with Some entries => flat_map (zip_entry_says (v_json_err V) (v_read_err V) (w_dec_osv (e_world E)) (dc_wd c)) entries | None => [] end
         | _ => [] end = []).
      { unfold zip_load in Z. destruct (fetch_zip _ _ _ _) as [fr fw fq]. cbn [f_result f_write f_reqs rbind] in Z |- *. destruct fr as [[e1|[b d]]|]; [reflexivity| |reflexivity]. cbn [rbind] in Z. destruct (w_unzip (e_world E) b); [discriminate|reflexivity]. }
      cbv zeta. rewrite X, app_nil_r. apply lw_zip_fails; [exact T|discriminate|]. apply cache_words_of.
  - destruct (seqb_spec (dc_type c) "api") as [A|A]; [intros [= <- <- <-]; apply lw_other; [exact T|rewrite A; discriminate]|].
    destruct (seqb_spec (dc_type c) "dir") as [D|D]; [|intros [= <- <- <-]; now apply lw_other].
    destruct (dir_load _ _ _ _ _ _) as [e|db] eqn:L; intros [= <- <- <-]; [apply lw_dir_fails; [exact D|discriminate]|].
    destruct (dir_loaded _ _ _ _ L) as (u & os & R & U & -> & G & I). destruct (dir_shape (w_dec_osv (e_world E)) _ _ _ (dc_wd c) _ R U G) as (ts & -> & N & S).
    eapply lw_dir; eauto.
Qed.

(** ** the grammar *)
Notation Talk := (talk E V O).
Notation Evolves := (evolves (e_sort E) (e_sem E)).
Lemma talk_app f L a g K : Talk f L a g K -> forall b h J, Talk g K b h J -> Talk f L (a ++ b) h J.
Proof.
  induction 1 as [f L|f L e o g K D T IH|f L p a path parser o g K GF SP N1 N2 FP T IH|f L c ns r w reqs said said' o g K LD F1 F2 T IH|f L p l d os ts o g K GF PL I H B T IH]; intros b h J Tb.
  - exact Tb.
  - cbn [app]. apply tk_did; auto.
  - rewrite <- app_assoc. eapply tk_parse; eauto.
  - cbn [app]. rewrite <- !app_assoc. eapply tk_load; eauto.
  - rewrite <- app_assoc. eapply tk_check; eauto.
Qed.
Lemma talk_dids f L n : Forall own_doing n -> Talk f L (map Did n) f L.
Proof. induction 1 as [|e n D F IH]; cbn [map]; constructor; auto. Qed.
Definition mute (s s' : St) : Prop := (exists n, s_trace s' = s_trace s ++ n /\ Forall own_doing n) /\ s_cache s' = s_cache s /\ s_dbs s' = s_dbs s.
Lemma mute_refl s : mute s s. Proof. split; [exists []; now rewrite app_nil_r|auto]. Qed.
Lemma mute_trans a b c : mute a b -> mute b c -> mute a c.
Proof.
  intros [(n & T & F) [C D]] [(n' & T' & F') [C' D']]. split; [|split; congruence]. exists (n ++ n'). split; [now rewrite T', T, app_assoc|]. now apply Forall_app.
Qed.
Lemma mute_emit e : own_doing e -> keeps mute (emit e).
Proof. intros D s. split; [exists [e]; auto|auto]. Qed.
Lemma mute_same {A} (m : M A) : (forall s, s_trace (snd (m s)) = s_trace s /\ s_cache (snd (m s)) = s_cache s /\ s_dbs (snd (m s)) = s_dbs s) -> keeps mute m.
Proof. intros H s. destruct (H s) as (T & C & D). split; [exists []; rewrite T, app_nil_r; auto|auto]. Qed.
Ltac mm := repeat (cbv zeta; match goal with
  | |- keeps _ (bind _ _) => apply (keeps_bind _ mute_trans); [|intros ?]
  | |- keeps _ (ret _) => apply keeps_ret, mute_refl
  | |- keeps _ (lift _) => apply keeps_lift, mute_refl
  | |- keeps _ (get _) => apply keeps_get, mute_refl
  | |- keeps _ (print_text _ _) => unfold print_text
  | |- keeps _ (print_error _) => unfold print_error
  | |- keeps _ (print_result _ _ _) => unfold print_result
  | |- keeps _ (print_load_err _ _) => unfold print_load_err
  | |- keeps _ (print_known_ecosystems _) => unfold print_known_ecosystems
  | |- keeps _ (alloc _) => unfold alloc
  | |- keeps _ (load_at _) => unfold load_at
  | |- keeps _ (find_cfg _ _) => unfold find_cfg
  | |- keeps _ (load_cfg _ _) => unfold load_cfg, report_db_errs
  | |- keeps _ (adjust_all _ _ _) => unfold adjust_all, adjust_one
  | |- keeps _ (find_all_lockfiles _ _) => unfold find_all_lockfiles
  | |- keeps _ (find_lockfiles _ _ _) => unfold find_lockfiles
  | |- keeps _ (write_updated_configs _ _ _) => unfold write_updated_configs
  | |- keeps _ (emit _) => apply mute_emit; split; discriminate
  | |- keeps _ (set_heap _) => apply mute_same; now repeat split
  | |- keeps _ (set_files _) => apply mute_same; now repeat split
  | |- keeps _ set_errored => apply mute_same; now repeat split
  | |- keeps _ (add_result _) => apply mute_same; now repeat split
  | |- keeps _ (each _ _) => apply (keeps_each _ mute_refl mute_trans); intros ? ?
  | H : forall _, keeps _ _ |- _ => solve [apply H]
  | H : keeps _ _ |- _ => exact H
  | |- keeps _ (if ?b then _ else _) => destruct b
  | |- keeps _ (let '(_, _) := ?b in _) => destruct b
  | |- keeps _ (match ?b with _ => _ end) => destruct b
  end).

Definition ready (L : list DB) (s : St) : Prop := Forall (fun d => exists d0, In d0 L /\ Evolves d0 d) (s_dbs s).
Definition tells {A} (L : list DB) (w : W A) : Prop := forall s r s' o, w s = (r, s', o) -> ready L s ->
  Talk (s_cache s) L o (s_cache s') L /\ ready L s'.
Lemma tells_bind {A B} L (m : W A) (g : A -> W B) : tells L m -> (forall a, tells L (g a)) -> tells L (wbind m g).
Proof.
  intros H K s r s' o W R. unfold wbind in W. destruct (m s) as [[[a|] s1] o1] eqn:Q.
  - destruct (g a s1) as [[r2 s2] o2] eqn:Q2. injection W as <- <- <-. destruct (H _ _ _ _ Q R) as [T1 R1]. destruct (K _ _ _ _ _ Q2 R1) as [T2 R2].
    split; [eapply talk_app; eauto|exact R2].
  - injection W as <- <- <-. exact (H _ _ _ _ Q R).
Qed.
Lemma up_mute {A} (m : M A) s r s' o : keeps mute m -> up m s = (r, s', o) ->
  m s = (r, s') /\ s_cache s' = s_cache s /\ s_dbs s' = s_dbs s /\ exists n, o = map Did n /\ Forall own_doing n.
Proof.
  intros K W. unfold up in W. specialize (K s). destruct (m s) as [r0 s0]. injection W as <- <- <-. cbn [snd] in K. destruct K as [(n & T & F) [C D]].
  split; [reflexivity|]. split; [exact C|]. split; [exact D|]. exists n. rewrite T, skipn_all_app. auto.
Qed.
Lemma tells_up {A} L (m : M A) : keeps mute m -> tells L (up m).
Proof.
  intros K s r s' o W R. destruct (up_mute _ _ _ _ _ K W) as (_ & C & D & n & -> & F). rewrite C. split; [now apply talk_dids|]. unfold ready. now rewrite D.
Qed.
Ltac tt := repeat (cbv zeta; match goal with
  | |- tells _ (wbind (notes _) _) => fail 1
  | |- tells _ (wbind _ _) => apply tells_bind; [|intros ?]
  | |- tells _ (wret _) => unfold wret
  | |- tells _ (up _) => apply tells_up; solve [mm]
  | H : tells _ _ |- _ => exact H
  | H : forall _, tells _ _ |- _ => solve [apply H]
  | H : forall _ _, tells _ _ |- _ => solve [apply H]
  | H : forall _ _ _, tells _ _ |- _ => solve [apply H]
  | H : forall _ _ _ _, tells _ _ |- _ => solve [apply H]
  | |- tells _ (if ?b then _ else _) => destruct b
  | |- tells _ (let '(_, _) := ?b in _) => destruct b
  | |- tells _ (match ?b with _ => _ end) => destruct b
  end).
Lemma tells_notes L l : (forall f, Talk f L (map Note l) f L) -> tells L (notes l).
Proof. intros H s r s' o W R. injection W as <- <- <-. split; [apply H|exact R]. Qed.
Lemma tells_parse L p : given_file E O p -> tells L (notes (parse_says V p)).
Proof.
  intros GF. apply tells_notes. intros f. unfold parse_says. destruct (split_parse_as p) as [a path] eqn:SP. unfold parse_as_csv_row, parse_as_csv_file.
  destruct (seqb_spec a "csv-row") as [|N1]; [constructor|]. destruct (seqb_spec a "csv-file") as [|N2]; [constructor|]. cbn [orb].
  destruct (fst (find_parser path a)) as [x|] eqn:FP; [|constructor]. rewrite <- (app_nil_r (map Note _)). eapply tk_parse; eauto. constructor.
Qed.
Lemma tells_read L : forall paths cl cfg, Forall (given_file E O) paths -> tells L (read_all_full E V O paths cl cfg).
Proof.
  induction paths as [|p ps IH]; intros cl cfg F; cbn [read_all_full]; [tt|]. inversion F as [|? ? GF F']; subst.
  assert (IH' : forall cl cfg, tells L (read_all_full E V O ps cl cfg)) by (intros; now apply IH).
  pose proof (tells_parse L p GF). tt; apply tells_bind; try assumption; intros _; tt.
Qed.
(** the files read are parsed from those given *)
Definition read_from (f : LFile) : Prop := l_err f = None -> exists p, given_file E O p /\ parse_lockfile E O p = Ok (l_lock f, None).
Lemma read_given : forall paths cl cfg s files s', read_all E O paths cl cfg s = (Ok files, s') -> Forall (given_file E O) paths -> Forall read_from files.
Proof.
  induction paths as [|p ps IH]; intros cl cfg s files s' H F; cbn [read_all] in H; [injection H as <- _; constructor|]. inversion F as [|? ? GF F']; subst. cbv zeta in H.
  assert (FIN : forall cfg s1, (x <- lift (parse_lockfile E O p) ; rest <- read_all E O ps cl cfg ; ret (mkLFile (fst x) cfg (snd x) :: rest)) s1 = (Ok files, s') -> Forall read_from files).
  { intros c1 s1 W. step W x s2 Hx. injection Hx as Hx <-. step W rest s3 Hr. injection W as <- _. constructor; [|eapply IH; eauto]. intros N. cbn [l_err l_lock] in *.
    exists p. split; [exact GF|]. destruct x as [l e]. cbn [fst snd] in *. now subst. }
  destruct cl.
  - step H x s1 Hf. destruct x as [e|con].
    + step H rest s2 Hr. injection H as <- _. constructor; [discriminate|eapply IH; eauto].
    + step H c1 s2 Ha. eapply FIN; eauto.
  - step H c s1 Hc. destruct (negb _); [step H c1 s2 Ha|]; eapply FIN; eauto.
Qed.

Lemma wbind_inv {A B} (m : W A) (g : A -> W B) s r s' o : wbind m g s = (r, s', o) ->
  (exists a s1 o1 o2, m s = (Ok a, s1, o1) /\ g a s1 = (r, s', o2) /\ o = o1 ++ o2) \/ (m s = (Panic, s', o) /\ r = Panic).
Proof.
  unfold wbind. destruct (m s) as [[[a|] s1] o1]; [|intros [= <- <- <-]; auto]. destruct (g a s1) as [[r2 s2] o2] eqn:Q. intros [= <- <- <-]. left. exists a, s1, o1, o2. auto.
Qed.
Lemma evolves_state d0 d n i db : Evolves d0 d -> (exists date, d = ZipD n i db date) \/ d = DirD n i db -> forall os ns,
  ((exists date, d0 = ZipD n i (load_all ns os) date) \/ d0 = DirD n i (load_all ns os)) -> db_state ns os db.
Proof.
  intros V0 Q os ns Q0. destruct V0 as [n' i' a b date H|n' i' a b H|a]; destruct Q as [[dt Q]|Q], Q0 as [[dt0 Q0]|Q0]; try discriminate; injection Q as -> -> ->; injection Q0 as ->;
    eapply history_state; eauto using db_state_load.
Qed.
(** every database is what its advisories make it *)
Definition filled (L : list DB) : Prop := forall d, In d L -> (exists a, d = ApiD a) \/ exists os, holding d os.
Lemma says_talk L d0 d p l f : given_file E O p -> parse_lockfile E O p = Ok (l, None) ->
  filled L -> In d0 L -> Evolves d0 d -> Talk f L (map Note (db_says E d (lf_pkgs l))) f L.
Proof.
  intros GF PL FL I Ev. destruct (FL _ I) as [[a ->]|(os & n & i & ns & Q)].
  - inversion Ev; subst. constructor.
  - rewrite <- (app_nil_r (map Note _)). eapply (tk_check E V O f L p l d0 os); [exact GF|exact PL|exact I|exists n, i, ns; exact Q| |constructor].
    destruct Q as [[date ->]| ->]; inversion Ev as [? ? ? db' ? H|? ? ? db' H|]; subst; cbn [db_says]; eapply check_blank; eauto;
      eapply history_state; eauto using db_state_load.
Qed.
Lemma ready_upd L ds i d' d0 : Forall (fun d => exists d0, In d0 L /\ Evolves d0 d) ds -> In d0 L -> Evolves d0 d' ->
  Forall (fun d => exists d0, In d0 L /\ Evolves d0 d) (upd ds i d').
Proof.
  intros F I Ev. revert i. induction F as [|x l X F IH]; intros [|i]; cbn [upd]; constructor; eauto.
Qed.
Lemma tells_lift {A B} L (r : res A) (g : A -> W B) : (forall a, r = Ok a -> tells L (g a)) -> tells L (wbind (up (lift r)) g).
Proof.
  intros H s r' s' o W R. apply wbind_inv in W as [(a & s1 & o1 & o2 & G & W & ->)|[G ->]]; unfold up, lift in G; rewrite skipn_all in G.
  - injection G as G <- <-. exact (H _ G _ _ _ _ W R).
  - injection G as _ <- <-. split; [constructor|exact R].
Qed.
Lemma tells_set_dbs L ds : Forall (fun d => exists d0, In d0 L /\ Evolves d0 d) ds -> tells L (up (set_dbs ds)).
Proof. intros F s r s' o W R. unfold up, set_dbs in W. cbn [s_trace] in W. rewrite skipn_all in W. injection W as <- <- <-. split; [constructor|exact F]. Qed.
Lemma tells_get_dbs {B} L (g : list DB -> W B) : (forall ds, Forall (fun d => exists d0, In d0 L /\ Evolves d0 d) ds -> tells L (g ds)) -> tells L (wbind (up (get s_dbs)) g).
Proof.
  intros H s r' s' o W R. apply wbind_inv in W as [(a & s1 & o1 & o2 & G & W & ->)|[G ->]]; unfold up, get in G; rewrite skipn_all in G; [|discriminate].
  injection G as <- <- <-. exact (H _ R _ _ _ _ W R).
Qed.
Definition from_given (l : Lockfile) : Prop := exists p, given_file E O p /\ parse_lockfile E O p = Ok (l, None).
Lemma tells_check_dbs L k lockf : filled L -> from_given lockf -> forall dbs, tells L (check_dbs_full E k dbs lockf).
Proof.
  intros FL (p & GF & PL). induction dbs as [|i dbs IH]; cbn [check_dbs_full]; [tt|]. apply tells_get_dbs. intros ds F.
  destruct (nth_error ds i) as [d|] eqn:N; [|tt].
  assert (Rd : exists d0, In d0 L /\ Evolves d0 d) by (rewrite Forall_forall in F; apply F; eapply nth_error_In; eauto). destruct Rd as (d0 & I0 & Ev).
  apply tells_bind; [tt|]. intros _. apply tells_bind; [apply tells_notes; intros f; eapply says_talk; eauto|]. intros _.
  apply tells_lift. intros [r d'] C. destruct (check_db_answers E k d0 d _ _ _ Ev C) as [Ev' _].
  apply tells_bind; [apply tells_set_dbs; eapply ready_upd; eauto|]. intros _. tt.
Qed.
Lemma tells_check L k dbs lockf ign : filled L -> from_given lockf -> tells L (check_lockfile_full E k dbs lockf ign).
Proof. intros FL FG. unfold check_lockfile_full. pose proof (tells_check_dbs L k lockf FL FG). tt. Qed.
Lemma tells_check_files L : filled L -> forall files, Forall read_from files -> forall k exit seen, tells L (check_files_full E O files k exit seen).
Proof.
  intros FL. induction files as [|f files IH]; intros F k exit seen; cbn [check_files_full]; [tt|]. inversion F as [|? ? Ff F']; subst.
  assert (IH' : forall k exit seen, tells L (check_files_full E O files k exit seen)) by (intros; now apply IH). clear IH.
  apply tells_bind; [tt|]. intros _. unfold read_from in Ff. destruct (l_err f) as [e|]; [tt|]. specialize (Ff eq_refl).
  assert (K : forall k dbs ign, tells L (check_lockfile_full E k dbs (l_lock f) ign)) by (intros; now apply tells_check). tt.
Qed.
Lemma up_seq {A B} (m1 m2 : M unit) (g : A -> W B) (w : W A) s : keeps ext m1 -> keeps ext m2 ->
  wbind (up (m1 ;; m2)) (fun _ => wbind w g) s = wbind (up m1) (fun _ => wbind (up m2) (fun _ => wbind w g)) s.
Proof.
  intros K1 K2. unfold wbind at 1 3, up at 1 2, bind. specialize (K1 s). destruct (m1 s) as [[[]|] s1]; [|reflexivity]. unfold wbind at 2, up. specialize (K2 s1).
  destruct (m2 s1) as [r2 s2]. cbn [snd] in K1, K2. destruct K1 as [n1 N1], K2 as [n2 N2]. rewrite N2, N1, <- app_assoc, !skipn_all_app, app_assoc, skipn_all_app.
  destruct r2 as [[]|]; [|now rewrite map_app]. destruct (wbind w g s2) as [[r3 s3] o3]. now rewrite map_app, app_assoc.
Qed.
(** loading adds databases *)
Definition adds (f : files) (L : list DB) (o : list out) (s' : St) (L' : list DB) : Prop := Talk f L o (s_cache s') L' /\ (filled L -> filled L').
Lemma load_fills c ns file r w reqs L : load_db (e_world E) file c (o_offline O) (o_batch O) ns = (r, w, reqs) ->
  filled L -> filled (L ++ match r with Ok (inr d) => [d] | _ => [] end).
Proof.
  intros LD FL. destruct r as [[e|d]|]; rewrite ?app_nil_r; try exact FL. intros x I. apply in_app_or in I as [I|[<-|[]]]; [now apply FL|].
  pose proof (last_told c ns file _ _ _ LD) as T. inversion T; subst.
  - right. eexists. do 3 eexists. left. eexists. reflexivity.
  - exfalso. match goal with H : forall d, _ <> _ |- _ => eapply H; reflexivity end.
  - right. eexists. do 3 eexists. right. reflexivity.
  - exfalso. match goal with H : forall d, _ <> _ |- _ => eapply H; reflexivity end.
  - left. unfold load_db in LD. destruct (seqb_spec (dc_type c) "zip") as [Z|_]; [contradiction|]. destruct (seqb_spec (dc_type c) "api") as [_|_].
    + destruct (new_api_db _ _ _ _ _ _) as [e|a]; [discriminate|]. injection LD as <- _. eauto.
    + destruct (seqb_spec (dc_type c) "dir") as [Z|_]; [contradiction|]. discriminate.
Qed.
Lemma zips_out reqs : forall s, exists s1, up (each (fun q => emit (EZip q)) reqs) s = (Ok tt, s1, map (fun q => Did (EZip q)) reqs) /\ s_cache s1 = s_cache s /\ s_dbs s1 = s_dbs s.
Proof.
  assert (X : forall l s, exists s1, each (fun q => emit (EZip q)) l s = (Ok tt, s1) /\ s_trace s1 = s_trace s ++ map EZip l /\ s_cache s1 = s_cache s /\ s_dbs s1 = s_dbs s).
  { clear reqs. induction l as [|q l IH]; intros s; cbn [each map]; [exists s; rewrite app_nil_r; auto|]. unfold bind, emit at 1.
    match goal with |- context [each _ l ?t] => destruct (IH t) as (s1 & -> & T & C & D) end. exists s1. cbn in T, C, D. rewrite T, <- app_assoc. auto. }
  intros s. destruct (X reqs s) as (s1 & Q & T & C & D). exists s1. unfold up. rewrite Q, T, skipn_all_app, map_map. auto.
Qed.
Lemma loop_tells ns : forall configs s r s' o L, load_loop_full E V O configs ns s = (r, s', o) ->
  s_dbs s' = s_dbs s /\ exists L', adds (s_cache s) L o s' L' /\ (forall x, r = Ok x -> L' = L ++ fst x).
Proof.
  induction configs as [|c configs IH]; intros s r s' o L W; cbn [load_loop_full] in W.
  { unfold wret, up, ret in W. rewrite skipn_all in W. injection W as <- <- <-. split; [reflexivity|]. exists L. split; [split; [constructor|auto]|].
    intros x [= <-]. now rewrite app_nil_r. }
  apply wbind_inv in W as [(u & s1 & o1 & o2 & G & W & ->)|[G ->]].
  2:{ apply up_mute in G as (_ & C & D & n & -> & F); [|mm]. split; [exact D|]. exists L. split; [|discriminate]. split; [rewrite C; now apply talk_dids|auto]. }
  apply up_mute in G as (_ & C1 & D1 & n1 & -> & F1); [|mm]. rewrite <- C1, <- D1. clear C1 D1.
  assert (PRE : forall L' o2, adds (s_cache s1) L o2 s' L' -> adds (s_cache s1) L (map Did n1 ++ o2) s' L').
  { intros L' o3 [T X]. split; [|exact X]. eapply talk_app; [apply talk_dids; exact F1|exact T]. }
  enough (X : s_dbs s' = s_dbs s1 /\ exists L', adds (s_cache s1) L o2 s' L' /\ (forall x, r = Ok x -> L' = L ++ fst x)) by (destruct X as (X1 & L' & X2 & X3); eauto).
  clear PRE F1 n1. apply wbind_inv in W as [(u1 & s2 & o1 & o3 & G & W & ->)|[G ->]]; [|discriminate].
  unfold up, emit in G. cbn [s_trace] in G. rewrite skipn_all_app in G. injection G as _ <- <-. cbn [map app].
  apply wbind_inv in W as [(cache & s2 & o1 & o2 & G & W & ->)|[G ->]]; [|discriminate].
  unfold up, get in G. rewrite skipn_all in G. injection G as <- <- <-. cbn [map app s_cache] in W |- *. cbv zeta in W.
  set (path := e_cache_path E (dc_url c)) in *.
  destruct (load_db (e_world E) (s_cache s1 path) c (o_offline O) (o_batch O) ns) as [[r0 w] reqs] eqn:LD.
  apply wbind_inv in W as [(u2 & s2 & o1 & o3 & G & W & ->)|[G ->]]; [|discriminate]. injection G as _ <- <-.
  apply wbind_inv in W as [(u3 & s3 & o1 & o2 & G & W & ->)|[G ->]].
  2:{ match type of G with up _ ?t = _ => destruct (zips_out reqs t) as (s3 & Q & _) end. rewrite Q in G. discriminate. }
  match type of G with up _ ?t = _ => destruct (zips_out reqs t) as (s3' & Q & C3 & D3) end. rewrite Q in G. injection G as _ <- <-. cbn [s_dbs s_cache] in C3, D3. clear Q.
  apply wbind_inv in W as [(u4 & s4 & o1 & o3 & G & W & ->)|[G ->]]; [|discriminate].
  unfold up, set_cache in G. cbn [s_trace] in G. rewrite skipn_all in G. injection G as _ <- <-. cbn [map app].
  apply wbind_inv in W as [(u5 & s4 & o1 & o2 & G & W & ->)|[G ->]]; [|discriminate]. injection G as _ <- <-.
  pose proof (first_told c (s_cache s1 path)) as FT. pose proof (last_told c ns _ _ _ _ LD) as LT.
  match type of W with _ ?t = _ => set (s5 := t) in W end. assert (C5 : s_cache s5 = saved E V (s_cache s1) c w) by reflexivity. assert (D5 : s_dbs s5 = s_dbs s1) by exact D3.
  assert (PRE : forall L' o2, adds (s_cache s5) (L ++ match r0 with Ok (inr d) => [d] | _ => [] end) o2 s' L' ->
    adds (s_cache s1) L (Did (ELoad c) :: map Note (load_says_first E V c (s_cache s1 path)) ++ map (fun q => Did (EZip q)) reqs ++ map Note (load_says_then E V O c (s_cache s1 path)) ++ o2) s' L').
  { intros L' o3 [T X]. rewrite C5 in T. split; [eapply tk_load; eauto|]. intros FL. apply X. eapply load_fills; eauto. }
  rewrite <- D5. clear C3 D3 D5 C5. clearbody s5.
  enough (X : s_dbs s' = s_dbs s5 /\ exists L', adds (s_cache s5) (L ++ match r0 with Ok (inr d) => [d] | _ => [] end) o2 s' L' /\ (forall x, r = Ok x -> L' = L ++ fst x)).
  { destruct X as (X1 & L' & X2 & X3). split; [exact X1|]. exists L'. split; [now apply PRE|exact X3]. }
  clear PRE FT LT LD. apply wbind_inv in W as [(x & s6 & o1 & o3 & G & W & ->)|[G ->]]; unfold up, lift in G; rewrite skipn_all in G; injection G as -> <- <-.
  2:{ split; [reflexivity|]. rewrite app_nil_r. exists L. split; [split; [constructor|auto]|discriminate]. }
  cbn [map app].
  assert (NEXT : forall (m : M unit) (k : list DB * bool -> list DB * bool) L0 o3, keeps mute m ->
     wbind (up m) (fun _ => wbind (load_loop_full E V O configs ns) (fun y => wret (k y))) s5 = (r, s', o3) ->
     s_dbs s' = s_dbs s5 /\ exists L', adds (s_cache s5) L0 o3 s' L' /\ (forall x, r = Ok x -> exists y, x = k y /\ L' = L0 ++ fst y)).
  { intros m k L0 o4 Km W'. apply wbind_inv in W' as [(u6 & s6 & o1 & o5 & G & W' & ->)|[G ->]].
    2:{ apply up_mute in G as (_ & C & D & n & -> & F); [|exact Km]. split; [exact D|]. exists L0. split; [|discriminate]. split; [rewrite C; now apply talk_dids|auto]. }
    apply up_mute in G as (_ & C & D & n & -> & F); [|exact Km]. rewrite <- C, <- D. apply wbind_inv in W' as [(y & s7 & o1 & o6 & G & W' & ->)|[G ->]].
    - unfold wret, up, ret in W'. rewrite skipn_all in W'. injection W' as <- <- <-. cbn [map]. rewrite app_nil_r.
      destruct (IH _ _ _ _ L0 G) as (D7 & L' & [T X] & Y). split; [exact D7|]. exists L'. split; [split; [eapply talk_app; [now apply talk_dids|exact T]|exact X]|].
      intros x0 [= <-]. exists y. split; [reflexivity|]. now apply Y.
    - destruct (IH _ _ _ _ L0 G) as (D7 & L' & [T X] & Y). split; [exact D7|]. exists L'. split; [split; [eapply talk_app; [now apply talk_dids|exact T]|exact X]|]. discriminate. }
  destruct x as [e|db].
  - assert (W' : wbind (up (emit (ELoadFailed c e) ;; print_load_err E e)) (fun _ => wbind (load_loop_full E V O configs ns) (fun y => wret (fst y, true))) s5 = (r, s', o3)).
    { rewrite up_seq; [exact W|apply ext_emit|ee]. }
    assert (KM : keeps mute (emit (ELoadFailed c e) ;; print_load_err E e)) by mm.
    destruct (NEXT _ (fun y => (fst y, true)) L _ KM W') as (D & L' & A & Y). split; [exact D|]. rewrite app_nil_r. exists L'. split; [exact A|].
    intros x Q. destruct (Y x Q) as (y & -> & ->). reflexivity.
  - assert (KM : keeps mute (print_text O (db_desc E db +s+ newline))) by mm.
    destruct (NEXT _ (fun y => (db :: fst y, snd y)) (L ++ [db]) _ KM W) as (D & L' & A & Y). split; [exact D|]. exists L'. split; [exact A|].
    intros x Q. destruct (Y x Q) as (y & -> & ->). cbn [fst]. now rewrite <- app_assoc.
Qed.

Lemma load_tells configs ns s r s' o : load_databases_full E V O configs ns s = (r, s', o) ->
  s_dbs s' = s_dbs s /\ exists L', adds (s_cache s) [] o s' L' /\ (forall x, r = Ok x -> L' = fst x).
Proof.
  unfold load_databases_full. intros W. destruct (o_list_pkgs O).
  { apply up_mute in W as (Q & C & D & n & -> & F); [|mm]. split; [exact D|]. exists []. split; [split; [rewrite C; now apply talk_dids|auto]|]. injection Q as <- _. now intros x [= <-]. }
  apply wbind_inv in W as [(u & s1 & o1 & o2 & G & W & ->)|[G ->]].
  2:{ apply up_mute in G as (_ & C & D & n & -> & F); [|mm]. split; [exact D|]. exists []. split; [|discriminate]. split; [rewrite C; now apply talk_dids|auto]. }
  apply up_mute in G as (_ & C1 & D1 & n1 & -> & F1); [|mm]. rewrite <- C1, <- D1.
  apply wbind_inv in W as [(x & s2 & o1 & o3 & G & W & ->)|[G ->]]; destruct (loop_tells _ _ _ _ _ _ [] G) as (D2 & L' & [T X] & Y).
  - assert (Z : s_cache s' = s_cache s2 /\ s_dbs s' = s_dbs s2 /\ (exists n, o3 = map Did n /\ Forall own_doing n) /\ forall y, r = Ok y -> y = x).
    { apply wbind_inv in W as [(u2 & s3 & o1' & o4 & G' & W & ->)|[G' ->]].
      - apply up_mute in G' as (_ & C3 & D3 & n3 & -> & F3); [|mm]. apply up_mute in W as (Q & C4 & D4 & n4 & -> & F4); [|mm]. injection Q as <- _.
        split; [congruence|]. split; [congruence|]. split; [exists (n3 ++ n4); rewrite map_app; split; [reflexivity|now apply Forall_app]|]. now intros y [= <-].
      - apply up_mute in G' as (_ & C3 & D3 & n3 & -> & F3); [|mm]. split; [exact C3|]. split; [exact D3|]. split; [eauto|discriminate]. }
    destruct Z as (Z1 & Z2 & (n & -> & F) & Z4). split; [congruence|]. exists L'. split.
    + split; [|exact X]. rewrite Z1. eapply talk_app; [apply talk_dids; exact F1|]. eapply talk_app; [exact T|]. now apply talk_dids.
    + intros y Q. apply Z4 in Q as ->. rewrite (Y _ eq_refl). reflexivity.
  - split; [congruence|]. exists L'. split; [split; [eapply talk_app; [apply talk_dids; exact F1|exact T]|exact X]|discriminate].
Qed.
Definition ends {A} (w : W A) : Prop := forall s r s' o, w s = (r, s', o) -> ready [] s -> exists L, Talk (s_cache s) [] o (s_cache s') L.
Lemma tells_ends {A} (w : W A) : tells [] w -> ends w.
Proof. intros H s r s' o W R. exists []. exact (proj1 (H _ _ _ _ W R)). Qed.
Lemma ends_bind {A B} (m : W A) (g : A -> W B) : tells [] m -> (forall a, ends (g a)) -> ends (wbind m g).
Proof.
  intros H K s r s' o W R. apply wbind_inv in W as [(a & s1 & o1 & o2 & G & W & ->)|[G ->]].
  - destruct (H _ _ _ _ G R) as [T1 R1]. destruct (K _ _ _ _ _ W R1) as [L T2]. exists L. eapply talk_app; eauto.
  - exists []. exact (proj1 (H _ _ _ _ G R)).
Qed.
Lemma ends_load {B} configs ns (g : list DB * bool -> W B) : (forall x, filled (fst x) -> tells (fst x) (g x)) -> ends (wbind (load_databases_full E V O configs ns) g).
Proof.
  intros H s r s' o W R. assert (Z : s_dbs s = []).
  { unfold ready in R. destruct (s_dbs s) as [|d l]; [reflexivity|]. inversion R as [|? ? (d0 & [] & _) _]. }
  apply wbind_inv in W as [(x & s1 & o1 & o2 & G & W & ->)|[G ->]]; destruct (load_tells _ _ _ _ _ _ G) as (D & L' & [T X] & Y); [|eauto].
  rewrite (Y _ eq_refl) in *. assert (FL : filled (fst x)) by (apply X; intros d []).
  destruct (H _ FL _ _ _ _ W) as [T2 _]; [unfold ready; rewrite D, Z; constructor|]. exists (fst x). eapply talk_app; eauto.
Qed.
Lemma ends_bind_eq {A B} (m : W A) (g : A -> W B) : tells [] m -> (forall a s s1 o1, m s = (Ok a, s1, o1) -> ends (g a)) -> ends (wbind m g).
Proof.
  intros H K s r s' o W R. apply wbind_inv in W as [(a & s1 & o1 & o2 & G & W & ->)|[G ->]].
  - destruct (H _ _ _ _ G R) as [T1 R1]. destruct (K _ _ _ _ G _ _ _ _ W R1) as [L T2]. exists L. eapply talk_app; eauto.
  - exists []. exact (proj1 (H _ _ _ _ G R)).
Qed.
Lemma ends_files paths cl cfg : Forall (given_file E O) paths -> ends (run_files_full E V O paths cl cfg).
Proof.
  intros GP. unfold run_files_full. apply ends_bind_eq; [now apply tells_read|]. intros files s0 s1 o1 RD.
  assert (RF : Forall read_from files).
  { destruct (faithful_read E V O paths cl cfg s0) as [Q _]. rewrite RD in Q. eapply read_given; eauto. }
  apply ends_bind; [tt|]. intros _. apply ends_bind; [tt|]. intros h. apply ends_load. intros x FL.
  apply tells_bind; [apply tells_set_dbs; apply Forall_forall; intros d I; exists d; split; [exact I|apply evolves_refl]|]. intros _.
  apply tells_bind; [now apply tells_check_files|]. intros y. assert (U : forall l, keeps mute (update_all E l)) by (induction l as [|z l IH]; cbn [update_all]; unfold update_one; mm). tt.
Qed.
Lemma found_given s x s1 o1 : up (find_all_lockfiles E O) s = (Ok x, s1, o1) -> Forall (given_file E O) (fst x).
Proof.
  intros H. unfold up in H. destruct (find_all_lockfiles E O s) as [r s'] eqn:Hf. injection H as -> _ _.
  assert (IN : exists l e, inputs E O l e /\ x = (map as_arg l, e)).
  { destruct (string_dec (o_parse_as O) "csv-row") as [Q|Q].
    - exists [("csv-row", "-")], false. split; [now apply in_rows|]. unfold find_all_lockfiles, parse_as_csv_row in Hf. rewrite Q in Hf. cbn in Hf. now injection Hf as <- _.
    - destruct (find_all_spec E O HS EO s Q) as (l & e & s2 & F1 & F2 & _). rewrite F1 in Hf. injection Hf as <- _.
      exists l, e. split; [now apply in_found|reflexivity]. }
  destruct IN as (l & e & IN & ->). cbn [fst]. apply Forall_forall. intros p P. apply in_map_iff in P as (q & <- & P). exists l, e, q. auto.
Qed.
Lemma ends_body : ends (run_body_full E V O).
Proof.
  assert (L : forall l, keeps mute (find_all_loop E O l)) by (induction l as [|x l IH]; cbn [find_all_loop]; mm).
  unfold run_body_full. do 3 (match goal with |- ends (if ?b then _ else _) => destruct b end; [apply tells_ends; tt|]).
  apply ends_bind_eq; [tt|]. intros x s0 s1 o1 FA. pose proof (found_given _ _ _ _ FA) as GP. unfold run_config_full.
  repeat match goal with
  | |- ends (if ?b then _ else _) => destruct b
  | |- ends (run_files_full _ _ _ _ _ _) => now apply ends_files
  | |- ends (wbind _ _) => apply ends_bind; [solve [tt]|intros ?]
  | |- ends (match ?b with _ => _ end) => destruct b
  | |- ends (wret _) => apply tells_ends; tt
  end.
Qed.
Theorem run_talks fs cache r s' o : run_full E V O (start fs cache) = (r, s', o) -> exists L, Talk cache [] o (s_cache s') L.
Proof.
  unfold run_full. destruct (run_body_full E V O (start fs cache)) as [[r1 s1] o1] eqn:B.
  destruct (ends_body _ _ _ _ B) as [L T]; [constructor|]. cbn [start s_cache] in T. destruct (o_json O); [|intros [= <- <- <-]; eauto].
  destruct (up (print_json_results_full E V) s1) as [[r2 s2] o2] eqn:P. intros [= <- <- <-]. apply up_mute in P as (_ & C & _ & n & -> & F); [|unfold print_json_results_full, print_json_results; mm].
  exists L. rewrite C. eapply talk_app; [exact T|]. now apply talk_dids.
Qed.
End Run.
