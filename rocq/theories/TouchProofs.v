From Verif Require Import GoStr GoStrFacts GoSort GoMap Types Osv MemDB MemDBProofs Path PathFacts Api ZipDB ZipProofs DirDB DbConfig Configer ConfigSpec ConfigProofs Lockfile LockfileSpec Csv Report Main MainSpec MainTrace MainProofs DiscoverProofs RunProofs RunFacts RunEnd ApiRunSpec TouchSpec.

(** ** triples: before, after a result, after a crash *)
Definition tri {A} (P : St -> Prop) (m : M A) (Q : A -> St -> Prop) (R : St -> Prop) : Prop :=
  forall s, P s -> match m s with (Ok a, s') => Q a s' | (Panic, s') => R s' end.
Lemma tri_bind {A B} (P : St -> Prop) (m : M A) (f : A -> M B) Q Q' R : tri P m Q R -> (forall a, tri (Q a) (f a) Q' R) -> tri P (bind m f) Q' R.
Proof.
  intros H1 H2 s Ps. specialize (H1 s Ps). unfold bind. destruct (m s) as [[a|] s1]; [|exact H1]. exact (H2 a s1 H1).
Qed.
Lemma tri_ret {A} (a : A) (P : St -> Prop) (Q : A -> St -> Prop) R : (forall s, P s -> Q a s) -> tri P (ret a) Q R.
Proof. intros H s. exact (H s). Qed.
Lemma tri_get {A} (f : St -> A) (P : St -> Prop) (Q : A -> St -> Prop) R : (forall s, P s -> Q (f s) s) -> tri P (get f) Q R.
Proof. intros H s. exact (H s). Qed.
Lemma tri_lift {A} (r : res A) (P : St -> Prop) (Q : A -> St -> Prop) (R : St -> Prop) : (forall s a, P s -> r = Ok a -> Q a s) -> (forall s, P s -> R s) -> tri P (lift r) Q R.
Proof. intros H1 H2 s Ps. unfold lift. destruct r; auto. Qed.
Lemma tri_pre {A} (P P' : St -> Prop) (m : M A) Q R : (forall s, P s -> P' s) -> tri P' m Q R -> tri P m Q R.
Proof. intros H T s Ps. apply T, H, Ps. Qed.
Lemma tri_post {A} (P : St -> Prop) (m : M A) (Q Q' : A -> St -> Prop) R : (forall a s, Q' a s -> Q a s) -> tri P m Q' R -> tri P m Q R.
Proof. intros H T s Ps. specialize (T s Ps). destruct (m s) as [[a|] s']; auto. Qed.
Lemma tri_pure {A} (X : Prop) (P : St -> Prop) (m : M A) Q R : (X -> tri P m Q R) -> tri (fun s => P s /\ X) m Q R.
Proof. intros H s [Ps x]. exact (H x s Ps). Qed.
Lemma tri_each {A} (P : St -> Prop) (f : A -> M unit) R l : (forall a, In a l -> tri P (f a) (fun _ => P) R) -> tri P (each f l) (fun _ => P) R.
Proof.
  induction l as [|a l IH]; intros H; cbn [each]; [apply tri_ret; auto|]. eapply tri_bind; [apply H; now left|]. intros []. apply IH. intros b Hb. apply H. now right.
Qed.

Section Touch.
Variable E : Env.
Variable O : Opts.
Variable fs : string -> fread.
Variable cache : files.
Hypothesis SO : SorterOk (e_sort E).
Hypothesis IT : IterOk (e_iter E).
Hypothesis EO : EntriesOk E.
Notation allowed := (allowed E O fs cache).
Notation asked_for := (asked_for E O fs).
Notation config_place := (config_place E O).
Notation given_lock := (given_lock E O).

(** ** what always holds *)
Record bounds (s : St) : Prop := mkB {
  b_trace : Forall allowed (s_trace s);
  b_cache : forall p, s_cache s p = cache p \/ exists q, In (EZip q) (s_trace s) /\ p = e_cache_path E (rq_url q);
  b_cached : forall p, cached E O cache p (s_cache s p);
  b_count : List.length (requests (s_trace s)) <= List.length (loads (s_trace s)) }.
(** what holds in the end *)
Definition final (s : St) : Prop :=
  bounds s /\ forall p, s_files s p = fs p \/ exists c, In (EWriteConfig p c) (s_trace s) /\ s_files s p = FOk c.
(** what holds until configs are updated *)
Definition good_path (path : string) : Prop := path = "" \/ exists p raw, path = clean p /\ config_place p /\ load_raw (e_dec_yaml E) fs p = inr raw.
Definition good_cfg (c : Config) : Prop := good_path (cf_path c) /\ forall d, In d (cf_dbs c) -> o_no_dbs O = false -> asked_for d.
Definition good_db (d : DB) : Prop := match d with ApiD a => o_offline O = false /\ exists c, asked_for c /\ dc_type c = "api" /\ api_of E O c a | _ => True end.
Record inv (s : St) : Prop := mkI {
  i_bounds : bounds s; i_files : s_files s = fs; i_heap : Forall good_cfg (s_heap s); i_dbs : Forall good_db (s_dbs s) }.
Lemma inv_final s : inv s -> final s.
Proof. intros [B F H D]. split; [exact B|]. intros p. left. now rewrite F. Qed.

Lemma requests_app a b : requests (a ++ b) = (requests a ++ requests b)%list.
Proof. apply flat_map_app. Qed.
Definition plain (e : ev) : Prop := match e with EZip _ | ELoad _ => False | _ => True end.
Lemma bounds_emit e s : allowed e -> plain e -> bounds s -> bounds (snd (emit e s)).
Proof.
  intros A Pl [T C H N]. split; cbn [emit snd s_trace s_cache].
  - apply Forall_app. split; [exact T|]. now constructor.
  - intros p. destruct (C p) as [X|(q & X & Y)]; [now left|right]. exists q. split; [apply in_app_iff; now left|exact Y].
  - exact H.
  - rewrite requests_app, loads_app, !app_length. destruct e; try destruct Pl; cbn; lia.
Qed.
Lemma tri_emit e : allowed e -> plain e -> tri inv (emit e) (fun _ => inv) final.
Proof. intros A Pl s [B F H D]. split; try assumption. now apply (bounds_emit e s). Qed.
Lemma tri_text t : tri inv (print_text O t) (fun _ => inv) final.
Proof. apply tri_emit; [apply al_output|exact I]. Qed.
Lemma tri_error t : tri inv (print_error t) (fun _ => inv) final.
Proof.
  unfold print_error. eapply (tri_bind inv _ _ (fun _ => inv)); [|intros _; apply tri_emit; [apply al_output|exact I]].
  intros s [B F H D]. destruct B as [T C K N]. repeat split; assumption.
Qed.
Lemma tri_result r : tri inv (print_result E O r) (fun _ => inv) final.
Proof.
  unfold print_result. destruct (o_json O).
  - intros s [[T C K N] F Hp D]. repeat split; assumption.
  - apply tri_emit; [apply al_output|exact I].
Qed.
Lemma tri_inv {A} (a : A) : tri inv (ret a) (fun _ => inv) final.
Proof. apply tri_ret. auto. Qed.
Lemma tri_heap h : Forall good_cfg h -> tri inv (set_heap h) (fun _ => inv) final.
Proof. intros Hh s [[T C K N] F Hp D]. repeat split; assumption. Qed.
Lemma tri_dbs h : Forall good_db h -> tri inv (set_dbs h) (fun _ => inv) final.
Proof. intros Hh s [[T C K N] F Hp D]. repeat split; assumption. Qed.
Ltac tt := repeat match goal with
  | |- tri inv (bind _ _) (fun _ => inv) final => eapply (tri_bind inv _ _ (fun _ => inv)); [|intros ?]
  | |- tri inv (ret _) (fun _ => inv) final => apply tri_inv
  | |- tri inv (print_text _ _) _ _ => apply tri_text
  | |- tri inv (print_error _) _ _ => apply tri_error
  | |- tri inv (print_result _ _ _) _ _ => apply tri_result
  | |- tri inv (each _ _) _ _ => apply tri_each; intros ? ?
  | |- tri inv (if ?b then _ else _) _ _ => destruct b
  | |- tri inv (match ?b with _ => _ end) _ _ => destruct b
  | |- tri inv (get _) (fun _ => inv) _ => apply tri_get; auto
  | |- tri inv (lift _) (fun _ => inv) _ => apply tri_lift; [auto|exact inv_final]
  end.

(** ** configs *)
Lemma good_empty : good_cfg empty_config.
Proof. split; [now left|]. intros d []. Qed.
Lemma good_nth h i : Forall good_cfg h -> good_cfg (nth i h empty_config).
Proof. intros H. destruct (Nat.lt_ge_cases i (List.length h)) as [L|L]; [now apply (Forall_forall good_cfg h), nth_In|]. rewrite nth_overflow by exact L. apply good_empty. Qed.
Lemma good_upd h c : good_cfg c -> Forall good_cfg h -> forall i, Forall good_cfg (upd h i c).
Proof. intros Hc H. induction H as [|x h Hx H IH]; intros [|i]; cbn [upd]; constructor; auto. Qed.
Lemma tri_load_cfg path : checking O -> config_place path -> tri inv (load_cfg E path) (fun x s => inv s /\ forall c, x = inr c -> good_cfg c) final.
Proof.
  intros CH Pl. unfold load_cfg. eapply (tri_bind inv _ _ (fun _ => inv)); [apply tri_emit; [now apply al_read|exact I]|]. intros [].
  eapply (tri_bind inv _ _ (fun f s => inv s /\ f = fs)); [apply tri_get; intros s H; split; [exact H|apply H]|].
  intros f. apply tri_pure. intros ->. destruct (load_config _ _ fs path) as [e|[c errs]] eqn:L.
  - apply tri_ret. intros s H. split; [exact H|discriminate].
  - eapply (tri_bind inv _ _ (fun _ => inv)); [unfold report_db_errs; tt|]. intros []. apply tri_ret. intros s H. split; [exact H|]. intros c' Q. injection Q as <-.
    split.
    + unfold load_config in L. destruct (load_raw _ fs path) as [e|raw] eqn:R; [discriminate|]. destruct (to_configs _ _) as [dbs es]. injection L as <- <-.
      right. exists path, raw. auto.
    + intros d Hd N. eapply af_config; eauto.
Qed.
Lemma tri_find_cfg qs e q : checking O -> o_no_config O = false -> o_config O = "" -> inputs E O qs e -> In q qs ->
  tri inv (find_cfg E (path_dir (snd q))) (fun x s => inv s /\ forall c, x = inr c -> good_cfg c) final.
Proof.
  intros CH N C In1 Iq. unfold find_cfg.
  eapply tri_bind; [apply tri_load_cfg; [exact CH|eapply cp_beside; eauto]|]. intros x. apply tri_pure. intros Hx.
  destruct x as [[p|p|p]|c]; try (apply tri_ret; intros s H; split; [exact H|discriminate]); [|apply tri_ret; intros s H; split; [exact H|exact Hx]].
  eapply tri_bind; [apply tri_load_cfg; [exact CH|eapply cp_beside; eauto]|]. intros y. apply tri_pure. intros Hy.
  destruct y as [[p'|p'|p']|c]; try (apply tri_ret; intros s H; split; [exact H|discriminate]); [|apply tri_ret; intros s H; split; [exact H|exact Hy]].
  apply tri_ret. intros s H. split; [exact H|]. intros c Q. injection Q as <-. apply good_empty.
Qed.
Lemma tri_alloc c : good_cfg c -> tri inv (alloc c) (fun _ => inv) final.
Proof.
  intros Hc. unfold alloc. eapply (tri_bind inv _ _ (fun h s => inv s /\ Forall good_cfg h)); [apply tri_get; intros s H; split; [exact H|apply H]|].
  intros h. apply tri_pure. intros Hh. eapply (tri_bind inv _ _ (fun _ => inv)); [apply tri_heap, Forall_app; split; [exact Hh|now constructor]|]. intros []. apply tri_inv.
Qed.

(** ** reading *)
Definition good_files (lfs : list LFile) : Prop := forall f, In f lfs -> l_err f = None -> given_lock (l_lock f).
Lemma tri_read_plain qs e : known_as (o_parse_as O) -> inputs E O qs e ->
  forall ps cfg, (forall p, In p ps -> exists q, In q qs /\ p = as_arg q) ->
  tri inv (read_all E O ps false cfg) (fun lfs s => inv s /\ good_files lfs) final.
Proof.
  intros KN In1. induction ps as [|p ps IH]; intros cfg Hp; cbn [read_all].
  { apply tri_ret. intros s H. split; [exact H|]. intros f []. }
  destruct (Hp p (or_introl eq_refl)) as (q & Iq & ->). assert (Hp' : forall p, In p ps -> exists q, In q qs /\ p = as_arg q) by (intros p' Hp'; apply Hp; now right).
  cbv zeta.
  assert (FIN : forall cfg, tri inv (bind (lift (parse_lockfile E O (as_arg q))) (fun x => bind (read_all E O ps false cfg) (fun rest => ret (mkLFile (fst x) cfg (snd x) :: rest))))
    (fun lfs s => inv s /\ good_files lfs) final).
  { intros cfg'. eapply (tri_bind inv _ _ (fun x s => inv s /\ parse_lockfile E O (as_arg q) = Ok x)); [apply tri_lift; [auto|exact inv_final]|].
    intros x. apply tri_pure. intros Hx. eapply tri_bind; [apply IH; exact Hp'|]. intros rest. apply tri_pure. intros Hr. apply tri_ret. intros s H. split; [exact H|].
    intros f [<-|Hf]; [|now apply Hr]. cbn. intros Ne. exists qs, e, q. split; [exact In1|]. split; [exact Iq|]. rewrite Hx. destruct x; cbn in Ne; cbn. now subst. }
  eapply (tri_bind inv _ _ (fun c s => inv s /\ good_cfg c)).
  { unfold load_at. eapply (tri_bind inv _ _ (fun h s => inv s /\ Forall good_cfg h)); [apply tri_get; intros s H; split; [exact H|apply H]|].
    intros h. apply tri_pure. intros Hh. apply tri_ret. intros s H. split; [exact H|now apply good_nth]. }
  intros c. apply tri_pure. intros Hc. destruct (negb _); [|apply FIN].
  eapply (tri_bind inv _ _ (fun _ => inv)); [now apply tri_alloc|]. intros c'. apply FIN.
Qed.
Lemma tri_read qs e loc : checking O -> known_as (o_parse_as O) -> inputs E O qs e -> (loc = true -> o_no_config O = false /\ o_config O = "") ->
  forall ps cfg, (forall p, In p ps -> exists q, In q qs /\ p = as_arg q) ->
  tri inv (read_all E O ps loc cfg) (fun lfs s => inv s /\ good_files lfs) final.
Proof.
  intros CH KN In1 HL. induction ps as [|p ps IH]; intros cfg Hp; cbn [read_all].
  { apply tri_ret. intros s H. split; [exact H|]. intros f []. }
  destruct (Hp p (or_introl eq_refl)) as (q & Iq & ->). assert (Hp' : forall p, In p ps -> exists q, In q qs /\ p = as_arg q) by (intros p' Hp'; apply Hp; now right).
  pose proof (proj1 (Forall_forall _ _) (inputs_round E O qs e KN In1) q Iq) as SP. cbv zeta. rewrite SP.
  assert (FIN : forall cfg, tri inv (bind (lift (parse_lockfile E O (as_arg q))) (fun x => bind (read_all E O ps loc cfg) (fun rest => ret (mkLFile (fst x) cfg (snd x) :: rest))))
    (fun lfs s => inv s /\ good_files lfs) final).
  { intros cfg'. eapply (tri_bind inv _ _ (fun x s => inv s /\ parse_lockfile E O (as_arg q) = Ok x)); [apply tri_lift; [auto|exact inv_final]|].
    intros x. apply tri_pure. intros Hx. eapply tri_bind; [apply IH; exact Hp'|]. intros rest. apply tri_pure. intros Hr. apply tri_ret. intros s H. split; [exact H|].
    intros f [<-|Hf]; [|now apply Hr]. cbn. intros Ne. exists qs, e, q. split; [exact In1|]. split; [exact Iq|]. rewrite Hx. destruct x; cbn in Ne; cbn. now subst. }
  destruct loc.
  - destruct (HL eq_refl) as [N C]. eapply tri_bind; [eapply tri_find_cfg; eauto|]. intros x. apply tri_pure. intros Hx. destruct x as [er|con].
    + eapply tri_bind; [apply IH; exact Hp'|]. intros rest. apply tri_pure. intros Hr. apply tri_ret. intros s H. split; [exact H|].
      intros f [<-|Hf]; [discriminate|now apply Hr].
    + eapply (tri_bind inv _ _ (fun _ => inv)); [apply tri_alloc; now apply Hx|]. intros c'. apply FIN.
  - eapply (tri_read_plain qs e KN In1 (as_arg q :: ps) cfg Hp).
Qed.

(** ** the databases of each config *)
Definition settled (h : list Config) (i : nat) : Prop := forall d, In d (cf_dbs (nth i h empty_config)) -> asked_for d.
Lemma eco_asked l d : given_lock l -> o_use_dbs O = true -> In d (map ecosystem_config (collect_ecosystems E [mkLFile l 0 None])) -> asked_for d.
Proof.
  intros G U H. apply in_map_iff in H as (eco & <- & H). apply (collect_in E SO IT) in H as (N & p & Ip & <-). eapply af_ecosystem; eauto.
Qed.
Lemma adjusted_asked l c d : given_lock l -> good_cfg c -> In d (cf_dbs (adjusted E O l c)) -> asked_for d.
Proof.
  intros G [_ Hc] H. cbn [adjusted cf_dbs] in H.
  apply (proj1 (proj2 (unique_once _))) in H. cbn [List.concat] in H. rewrite app_nil_r in H. apply in_app_iff in H as [H|H].
  - destruct (o_no_dbs O) eqn:N; [destruct H|]. now apply Hc.
  - apply in_app_iff in H as [H|H].
    + destruct (o_use_api O) eqn:U; [|destruct H]. destruct H as [<-|[]]. now apply af_api.
    + destruct (o_use_dbs O) eqn:U; [|destruct H]. now apply (eco_asked l).
Qed.
Lemma tri_adjust lfs : good_files lfs -> tri inv (adjust_all E O lfs)
  (fun _ s => inv s /\ forall f, In f lfs -> l_err f = None -> settled (s_heap s) (l_cfg f)) final.
Proof.
  intros G. assert (X : forall l (done : LFile -> Prop), incl l lfs -> tri (fun s => inv s /\ forall f, done f -> settled (s_heap s) (l_cfg f)) (each (adjust_one E O) l)
    (fun _ s => inv s /\ forall f, done f \/ In f l /\ l_err f = None -> settled (s_heap s) (l_cfg f)) final).
  2:{ eapply tri_pre; [|eapply tri_post; [|apply (X lfs (fun _ => False)); apply incl_refl]].
      - intros s H. split; [exact H|]. intros f [].
      - intros _ s [H1 H2]. split; [exact H1|]. intros f F1 F2. apply H2. auto. }
  induction l as [|f l IH]; intros done Hl; cbn [each].
  { apply tri_ret. intros s [H1 H2]. split; [exact H1|]. intros f [Hf|[[] _]]. auto. }
  destruct (l_err f) eqn:Er.
  - eapply (tri_bind _ _ _ (fun _ s => inv s /\ forall f, done f -> settled (s_heap s) (l_cfg f))).
    { intros s H. unfold adjust_one. rewrite Er. exact H. }
    intros []. eapply tri_post; [|apply (IH done); intros g Hg; apply Hl; now right].
    intros _ s [H1 H2]. split; [exact H1|]. intros g [Hg|[[<-|Hg] Ne]]; [auto|congruence|auto].
  - eapply (tri_bind _ _ _ (fun _ s => inv s /\ forall g, done g \/ g = f -> settled (s_heap s) (l_cfg g))).
    { intros s [[[T C K N] F Hp D] Hd]. rewrite (adjust_good E O f s Er). cbn [with_heap s_heap]. pose proof (good_nth _ (l_cfg f) Hp) as Gc.
      assert (Gl : given_lock (l_lock f)) by (apply G; [apply Hl; now left|exact Er]).
      split.
      - repeat split; try assumption. cbn. apply good_upd; [|exact Hp]. split; [apply Gc|]. intros d Hdd _. eapply adjusted_asked; eauto.
      - assert (S : forall i, settled (s_heap s) i \/ i = l_cfg f -> settled (upd (s_heap s) (l_cfg f) (adjusted E O (l_lock f) (nth (l_cfg f) (s_heap s) empty_config))) i).
        { intros i Hi d Hd'. destruct (Nat.eq_dec (l_cfg f) i) as [<-|Ni].
          - destruct (Nat.lt_ge_cases (l_cfg f) (List.length (s_heap s))) as [L|L].
            + rewrite nth_upd_same in Hd' by exact L. eapply adjusted_asked; eauto.
            + rewrite nth_overflow in Hd' by (rewrite upd_length; exact L). destruct Hd'.
          - rewrite nth_upd_other in Hd' by exact Ni. destruct Hi as [Hi|Hi]; [now apply Hi|congruence]. }
        intros g [Hg| ->]; apply S; auto. }
    intros []. eapply tri_post; [|apply (IH (fun g => done g \/ g = f)); intros g Hg; apply Hl; now right].
    intros _ s [H1 H2]. split; [exact H1|]. intros g [Hg|[[<-|Hg] Ne]]; auto.
Qed.

(** ** loading *)
Lemma load_requests W before c offline batch names r w reqs : load_db W before c offline batch names = (r, w, reqs) ->
  (reqs = [] \/ dc_type c = "zip" /\ offline = false /\ reqs = [mkReq (dc_url c) (condition before)]) /\ (w <> None -> reqs <> []).
Proof.
  unfold load_db. destruct (seqb (dc_type c) "zip") eqn:Z.
  - apply seqb_eq in Z. cbn [zip_load]. intros H. injection H as _ <- <-. unfold fetch_zip, condition. destruct offline.
    + destruct (match before with Some content => fst (dec_cache content) | None => None end); cbn; split; auto; congruence.
    + replace (match before with Some content => fst (dec_cache content) | None => None end) with (match before with Some b => fst (dec_cache b) | None => None end) by reflexivity.
      assert (Q : match match before with Some b => fst (dec_cache b) | None => None end with Some c0 => Some (c_etag c0, c_date c0) | None => None end
        = match before with Some b => match fst (dec_cache b) with Some c0 => Some (c_etag c0, c_date c0) | None => None end | None => None end) by (destruct before; reflexivity).
      rewrite Q. destruct (w_answer W _) as [| |st et da bo]; cbn; [split; auto; congruence|split; [right; auto|discriminate]|].
      destruct (st =? 304)%Z; [destruct (match before with Some b => fst (dec_cache b) | None => None end); cbn; (split; [right; auto|discriminate])|].
      destruct (negb _); cbn; [split; [right; auto|discriminate]|]. destruct bo; cbn; (split; [right; auto|discriminate]).
  - destruct (seqb (dc_type c) "api"); [|destruct (seqb (dc_type c) "dir")]; intros H; injection H as _ <- <-; split; auto; congruence.
Qed.
Lemma load_good before c names w reqs d : load_db (e_world E) before c (o_offline O) (o_batch O) names = (Ok (inr d), w, reqs) -> asked_for c -> good_db d.
Proof.
  intros H A. unfold load_db in H. destruct (seqb (dc_type c) "zip").
  { destruct (zip_load _ _ _ _ _ _ _ _) as [[r w'] rq]. injection H as H _ _. destruct r as [[e|[db date]]|]; try discriminate. cbn in H. injection H as <-. exact I. }
  destruct (seqb (dc_type c) "api") eqn:Ty.
  - apply seqb_eq in Ty. destruct (new_api_db _ _ _ _ _ _) as [e|a] eqn:N; [discriminate|]. injection H as <- _ _. cbn.
    unfold new_api_db in N. destruct (o_offline O); [discriminate|]. destruct (Z.ltb _ _); [discriminate|]. destruct (w_parse_uri (e_world E) (dc_url c)) as [u|] eqn:U; [|discriminate].
    injection N as <-. split; [reflexivity|]. exists c. split; [exact A|]. split; [exact Ty|]. exists (dc_name c), u. auto.
  - destruct (seqb (dc_type c) "dir"); [|discriminate]. destruct (dir_load _ _ _ _ _ _); [discriminate|]. injection H as <- _ _. exact I.
Qed.
Definition stepped (s : St) (evs : list ev) (c : files) : St := mkSt (s_trace s ++ evs) (s_errored s) (s_results s) (s_heap s) (s_dbs s) (s_files s) c.
Lemma each_zip reqs : forall s, each (fun q => emit (EZip q)) reqs s = (Ok tt, stepped s (map EZip reqs) (s_cache s)).
Proof.
  induction reqs as [|q reqs IH]; intros s; cbn [each map]; [unfold ret, stepped; rewrite app_nil_r; now destruct s|].
  unfold bind, emit. rewrite IH. unfold stepped. cbn. now rewrite <- app_assoc.
Qed.
Lemma load_step s c names r w reqs : inv s -> checking O -> asked_for c ->
  load_db (e_world E) (s_cache s (e_cache_path E (dc_url c))) c (o_offline O) (o_batch O) names = (r, w, reqs) ->
  inv (stepped s (ELoad c :: map EZip reqs)
        (match w with Some content => file_set (s_cache s) (e_cache_path E (dc_url c)) (Some content) | None => s_cache s end)).
Proof.
  intros [[T C K N] F Hp D] CH A L. destruct (load_requests _ _ _ _ _ _ _ _ _ L) as [R W].
  split; try assumption. split; cbn [stepped s_trace s_cache].
  - apply Forall_app. split; [exact T|]. constructor; [now apply al_load|]. destruct R as [->|(Ty & Of & ->)]; [constructor|]. constructor; [apply al_archive; auto|constructor].
  - assert (X : forall p, s_cache s p = cache p \/ exists q, In (EZip q) (s_trace s ++ ELoad c :: map EZip reqs) /\ p = e_cache_path E (rq_url q)).
    { intros p. destruct (C p) as [Y|(q & Y & Z)]; [now left|right; exists q; split; [apply in_app_iff; now left|exact Z]]. }
    intros p. destruct w as [content|]; [|apply X]. unfold file_set. destruct (seqb p _) eqn:Q; [|apply X]. apply seqb_eq in Q as ->.
    right. destruct R as [->|(Ty & Of & ->)]; [now destruct W|]. eexists. split; [apply in_app_iff; right; right; now left|reflexivity].
  - intros p. destruct w as [content|]; [|apply K]. unfold file_set. destruct (seqb p _) eqn:Q; [|apply K]. apply seqb_eq in Q as ->.
    eapply ca_saved; [reflexivity|apply K|exact L].
  - rewrite requests_app, loads_app, !app_length. cbn [requests loads flat_map]. destruct R as [->|(Ty & Of & ->)]; cbn; lia.
Qed.
Lemma tri_load_loop names : checking O -> forall cs, Forall asked_for cs -> tri inv (load_loop E O cs names) (fun x s => inv s /\ Forall good_db (fst x)) final.
Proof.
  intros CH. induction cs as [|c cs IH]; intros HA; cbn [load_loop].
  { apply tri_ret. intros s H. split; [exact H|constructor]. }
  inversion_clear HA as [|x y Hc Hcs]. eapply (tri_bind inv _ _ (fun _ => inv)); [apply tri_text|]. intros [].
  intros s Hs. unfold bind at 1. cbn [emit]. unfold bind at 1. cbn [get s_cache].
  destruct (load_db (e_world E) (s_cache s (e_cache_path E (dc_url c))) c (o_offline O) (o_batch O) names) as [[r w] reqs] eqn:L.
  pose proof (load_step s c names r w reqs Hs CH Hc L) as Hs'. unfold bind at 1. rewrite each_zip. unfold bind at 1. cbn [set_cache].
  match goal with |- match bind _ _ ?t with _ => _ end => replace t with (stepped s (ELoad c :: map EZip reqs)
        (match w with Some content => file_set (s_cache s) (e_cache_path E (dc_url c)) (Some content) | None => s_cache s end))
    by (unfold stepped; cbn; now rewrite <- app_assoc) end.
  revert Hs'. generalize (stepped s (ELoad c :: map EZip reqs) (match w with Some content => file_set (s_cache s) (e_cache_path E (dc_url c)) (Some content) | None => s_cache s end)).
  match goal with |- forall s, inv s -> match ?m s with _ => _ end => change (tri inv m (fun x s => inv s /\ Forall good_db (fst x)) final) end.
  eapply (tri_bind inv _ _ (fun x s => inv s /\ r = Ok x)); [apply tri_lift; [auto|exact inv_final]|]. intros x. apply tri_pure. intros ->. destruct x as [er|d].
  - eapply (tri_bind inv _ _ (fun _ => inv)); [apply tri_emit; [now apply al_failed|exact I]|]. intros [].
    eapply (tri_bind inv _ _ (fun _ => inv)); [unfold print_load_err; apply tri_error|]. intros [].
    eapply tri_bind; [now apply IH|]. intros y. apply tri_pure. intros Hy. apply tri_ret. auto.
  - eapply (tri_bind inv _ _ (fun _ => inv)); [apply tri_text|]. intros [].
    eapply tri_bind; [now apply IH|]. intros y. apply tri_pure. intros Hy. apply tri_ret. intros s1 H1. split; [exact H1|]. cbn. constructor; [|exact Hy]. eapply load_good; eauto.
Qed.
Lemma tri_load_databases cs names : (o_list_pkgs O = false -> checking O) -> Forall asked_for cs ->
  tri inv (load_databases E O cs names) (fun x s => inv s /\ Forall good_db (fst x)) final.
Proof.
  intros CH HA. unfold load_databases. destruct (o_list_pkgs O) eqn:LP; [apply tri_ret; intros s H; split; [exact H|constructor]|]. specialize (CH eq_refl).
  eapply (tri_bind inv _ _ (fun _ => inv)); [apply tri_text|]. intros [].
  eapply tri_bind; [now apply tri_load_loop|]. intros r. apply tri_pure. intros Hr.
  eapply (tri_bind inv _ _ (fun _ => inv)); [apply tri_text|]. intros []. apply tri_ret. auto.
Qed.

(** ** checking *)
Lemma good_upd_db l d : good_db d -> Forall good_db l -> forall i, Forall good_db (upd l i d).
Proof. intros Hc H. induction H as [|x h Hx H IH]; intros [|i]; cbn [upd]; constructor; auto. Qed.
Lemma check_db_good k d pkgs r d' : check_db E k d pkgs = Ok (r, d') -> good_db d -> good_db d'.
Proof.
  unfold check_db. destruct d as [n i db date|a|n i db]; intros H G.
  - destruct (check _ _ db pkgs) as [[x y]|]; [|discriminate]. injection H as _ <-. exact I.
  - destruct (e_api E k a pkgs); [|discriminate]. injection H as _ <-. exact G.
  - destruct (check _ _ db pkgs) as [[x y]|]; [|discriminate]. injection H as _ <-. exact I.
Qed.
Lemma tri_check_dbs k l : checking O -> given_lock l -> forall is, tri inv (check_dbs E k is l) (fun _ => inv) final.
Proof.
  intros CH G. induction is as [|i is IH]; cbn [check_dbs]; [apply tri_inv|].
  eapply (tri_bind inv _ _ (fun ds s => inv s /\ Forall good_db ds)); [apply tri_get; intros s H; split; [exact H|apply H]|].
  intros ds. apply tri_pure. intros Hds. destruct (nth_error ds i) as [d|] eqn:Nd; [|apply tri_lift; [discriminate|exact inv_final]].
  assert (Gd : good_db d) by (apply nth_error_In in Nd; now apply (Forall_forall good_db ds)).
  eapply (tri_bind inv _ _ (fun _ => inv)).
  { destruct d as [n j db date|a|n j db]; try apply tri_inv. destruct Gd as (Of & c & A & Ty & Ap). apply tri_emit; [eapply al_api; eauto|exact I]. }
  intros []. eapply (tri_bind inv _ _ (fun x s => inv s /\ check_db E k d (lf_pkgs l) = Ok x)); [apply tri_lift; [auto|exact inv_final]|].
  intros [r d']. apply tri_pure. intros Q.
  eapply (tri_bind inv _ _ (fun _ => inv)); [apply tri_dbs, good_upd_db; [eapply check_db_good; eauto|exact Hds]|]. intros [].
  destruct r as [e|rs].
  - eapply (tri_bind inv _ _ (fun _ => inv)); [apply tri_error|]. intros []. exact IH.
  - eapply (tri_bind inv _ _ (fun _ => inv)); [exact IH|]. intros x. apply tri_inv.
Qed.
Definition good_seen (seen : list (string * list string)) : Prop :=
  NoDup (map fst seen) /\ forall k, In k (map fst seen) -> k <> "" /\ good_path k.
Lemma tri_check_files : (o_list_pkgs O = false -> checking O) -> forall lfs k exit seen, good_files lfs -> good_seen seen ->
  tri inv (check_files E O lfs k exit seen) (fun x s => inv s /\ good_seen (snd x) /\ (o_update O = false \/ o_list_pkgs O = true -> snd x = seen)) final.
Proof.
  intros CH. induction lfs as [|f lfs IH]; intros k exit seen G Sn; cbn [check_files].
  { apply tri_ret. auto. }
  assert (G' : good_files lfs) by (intros g Hg; apply G; now right).
  eapply (tri_bind inv _ _ (fun _ => inv)); [destruct (Nat.leb 1 k); [apply tri_text|apply tri_inv]|]. intros [].
  destruct (l_err f) as [er|] eqn:Er.
  { eapply (tri_bind inv _ _ (fun _ => inv)); [apply tri_error|]. intros []. now apply IH. }
  pose proof (G f (or_introl eq_refl) Er) as Gl. cbv zeta.
  eapply (tri_bind inv _ _ (fun h s => inv s /\ Forall good_cfg h)); [apply tri_get; intros s H; split; [exact H|apply H]|].
  intros h. apply tri_pure. intros Hh. pose proof (good_nth h (l_cfg f) Hh) as Gc. set (c0 := nth (l_cfg f) h empty_config) in *.
  set (c := if o_no_ignores O then mkCfg (cf_path c0) [] (cf_dbs c0) else c0).
  assert (Gc' : good_cfg c) by (unfold c; destruct (o_no_ignores O); [exact Gc|exact Gc]).
  eapply (tri_bind inv _ _ (fun _ => inv)); [apply tri_heap, good_upd; assumption|]. intros [].
  eapply (tri_bind inv _ _ (fun _ => inv)); [apply tri_text|]. intros [].
  destruct (o_list_pkgs O) eqn:LP.
  { eapply (tri_bind inv _ _ (fun _ => inv)); [apply tri_result|]. intros []. now apply IH. }
  specialize (CH eq_refl).
  eapply (tri_bind inv _ _ (fun _ => inv)); [destruct (negb _); [apply tri_text|apply tri_inv]|]. intros [].
  eapply (tri_bind inv _ _ (fun _ => inv)); [apply tri_get; auto|]. intros dbs.
  eapply (tri_bind inv _ _ (fun _ => inv)); [apply tri_each; intros i _; destruct (nth_error dbs i); [apply tri_text|apply tri_inv]|]. intros [].
  eapply (tri_bind inv _ _ (fun _ => inv)); [apply tri_text|]. intros [].
  eapply (tri_bind inv _ _ (fun x s => inv s /\ exists rows, snd x = mkRep (l_lock f) rows)).
  { unfold check_lockfile. eapply (tri_bind inv _ _ (fun _ => inv)); [now apply tri_check_dbs|]. intros vulns.
    eapply (tri_bind inv _ _ (fun _ => inv)); [apply tri_lift; [auto|exact inv_final]|]. intros rows. apply tri_ret. intros s H. split; [exact H|]. now exists rows. }
  intros x. apply tri_pure. intros (rows & Hx). rewrite Hx.
  eapply (tri_bind inv _ _ (fun _ => inv)); [apply tri_emit; [now apply al_check|exact I]|]. intros [].
  eapply (tri_bind inv _ _ (fun _ => inv)); [apply tri_result|]. intros [].
  destruct (o_update O && negb (seqb (cf_path c) "")) eqn:U.
  - apply andb_prop in U as [U P]. apply negb_true_iff in P.
    eapply tri_post; [|apply IH; [exact G'|]].
    + intros a s (H1 & H2 & _). split; [exact H1|]. split; [exact H2|]. intros [Q|Q]; congruence.
    + destruct Sn as [S1 S2]. unfold add_seen. split; [now apply map_set_nodup|]. intros p Hp. apply map_set_keys in Hp as [->|Hp]; [|now apply S2].
      split; [intros Q; rewrite Q, seqb_refl in P; discriminate|apply Gc'].
  - now apply IH.
Qed.

(** ** updating *)
Record upd_inv (todo : list string) (s : St) : Prop := mkU {
  u_bounds : bounds s;
  u_files : forall p, s_files s p = fs p \/ exists c, In (EWriteConfig p c) (s_trace s) /\ s_files s p = FOk c;
  u_todo : forall p, In p todo -> s_files s p = fs p }.
Lemma upd_emit todo e s : upd_inv todo s -> allowed e -> plain e -> upd_inv todo (snd (emit e s)).
Proof.
  intros [B F T] A Pl. split; [now apply bounds_emit| |exact T]. intros p. cbn. destruct (F p) as [X|(c & X & Y)]; [now left|right]. exists c. split; [apply in_app_iff; now left|exact Y].
Qed.
Lemma upd_errored todo s : upd_inv todo s -> upd_inv todo (snd (set_errored s)).
Proof. intros [[T C K N] F U]. repeat split; assumption. Qed.
Lemma upd_final todo s : upd_inv todo s -> final s.
Proof. intros [B F U]. now split. Qed.
Lemma tri_update_all : checking O -> o_update O = true -> forall l, NoDup (map fst l) -> (forall k, In k (map fst l) -> k <> "" /\ good_path k) ->
  tri (upd_inv (map fst l)) (update_all E l) (fun _ => upd_inv []) final.
Proof.
  intros CH U. induction l as [|[path ids] l IH]; intros ND HK; cbn [update_all map fst].
  { apply tri_ret. auto. }
  cbn [map fst] in ND. inversion_clear ND as [|x y N1 N2].
  destruct (HK path (or_introl eq_refl)) as [Np Gp]. destruct Gp as [Gp|(p & raw & -> & Pl & LR)]; [contradiction|].
  eapply (tri_bind _ _ _ (fun _ => upd_inv (map fst l))).
  2:{ intros line. eapply tri_bind; [apply IH; [exact N2|intros k Hk; apply HK; now right]|]. intros rest. apply tri_ret. auto. }
  intros s Hs. unfold update_one. cbv zeta. unfold bind at 1. cbn [get]. unfold bind at 1.
  assert (Hs1 : upd_inv (clean p :: map fst l) (snd (emit (EReadConfig (clean (clean p))) s))).
  { apply upd_emit; [exact Hs| |exact I]. rewrite clean_idem. now apply al_read. }
  assert (SF : s_files (snd (emit (EReadConfig (clean (clean p))) s)) = s_files s) by reflexivity.
  set (s1 := snd (emit (EReadConfig (clean (clean p))) s)) in *. change (emit (EReadConfig (clean (clean p))) s) with (@Ok unit tt, s1). cbv beta iota.
  assert (LR' : load_raw (e_dec_yaml E) (s_files s) (clean p) = inr raw).
  { unfold load_raw in *. rewrite clean_idem. rewrite (u_todo _ _ Hs (clean p)) by now left. exact LR. }
  unfold update_with_ignores. rewrite LR'. destruct (negb (e_openable E (clean p))).
  { destruct Hs1 as [B F T]. split; [exact B|exact F|]. intros q Hq. apply T. now right. }
  unfold bind. cbn [set_files ret].
  cbn [emit s_trace s_errored s_results s_heap s_dbs s_files s_cache]. set (content := e_enc_yaml E _) in *.
  set (f' := fun q => if seqb q (clean (clean p)) then FOk content else s_files s q).
  enough (X : upd_inv (map fst l) (mkSt (s_trace s1 ++ [EWriteConfig (clean p) content]) (s_errored s1) (s_results s1) (s_heap s1) (s_dbs s1) f' (s_cache s1))) by exact X.
  assert (Hs2 : upd_inv (clean p :: map fst l) (snd (emit (EWriteConfig (clean p) content) s1))).
  { apply upd_emit; [exact Hs1| |exact I]. now apply al_write. }
  destruct Hs2 as [[T C K N] F Td]. split; [repeat split; assumption| |].
  - intros q. cbn [s_files s_trace]. unfold f'. rewrite clean_idem. destruct (seqb q (clean p)) eqn:Q.
    + apply seqb_eq in Q as ->. right. exists content. split; [cbn; apply in_app_iff; right; now left|reflexivity].
    + rewrite <- SF. exact (F q).
  - intros q Hq. cbn [s_files]. unfold f'. rewrite clean_idem. destruct (seqb q (clean p)) eqn:Q; [apply seqb_eq in Q as ->; contradiction|].
    rewrite <- SF. apply Td. now right.
Qed.
Lemma tri_write_configs seen : checking O -> o_update O = true -> good_seen seen -> tri inv (write_updated_configs E O seen) (fun _ => final) final.
Proof.
  intros CH U [N K]. unfold write_updated_configs.
  eapply (tri_bind inv _ _ (fun _ => inv)); [destruct (negb _); [apply tri_text|apply tri_inv]|]. intros [].
  pose proof (IT _ seen) as Pm.
  eapply (tri_bind inv _ _ (fun _ => upd_inv [])).
  - eapply tri_pre; [|apply tri_update_all; [exact CH|exact U| |]].
    + intros s [B F H D]. split; [exact B| |]; intros p; rewrite F; auto.
    + eapply Permutation_NoDup; [|exact N]. now apply Permutation_map, Permutation_sym.
    + intros k Hk. apply K. eapply Permutation_in; [|exact Hk]. now apply Permutation_map.
  - intros lines. eapply tri_post; [intros a s H; exact (upd_final [] s H)|]. apply tri_each. intros line _ s H. destruct (has_prefix line "Error updating").
    + unfold print_error, bind. cbn. exact (upd_emit _ _ _ (upd_errored _ _ H) (al_output _ _ _ _ _ _ _) I).
    + unfold print_text. exact (upd_emit _ _ _ H (al_output _ _ _ _ _ _ _) I).
Qed.

(** ** all *)
Lemma tri_run_files qs e loc cfg : (o_list_pkgs O = false -> checking O) -> (o_list_pkgs O = true -> loc = false) -> known_as (o_parse_as O) -> inputs E O qs e ->
  (loc = true -> o_no_config O = false /\ o_config O = "") -> tri inv (run_files E O (map as_arg qs) loc cfg) (fun _ => final) final.
Proof.
  intros CH LL KN In1 HL. unfold run_files.
  eapply (tri_bind inv _ _ (fun lfs s => inv s /\ good_files lfs)).
  { destruct (o_list_pkgs O) eqn:LP.
    - rewrite (LL eq_refl). apply (tri_read_plain qs e KN In1). intros p Hp. apply in_map_iff in Hp as (q & <- & Hq). eauto.
    - eapply tri_read; eauto. intros p Hp. apply in_map_iff in Hp as (q & <- & Hq). eauto. }
  intros lfs. apply tri_pure. intros G.
  eapply tri_bind; [now apply tri_adjust|]. intros []. cbn beta.
  eapply (tri_bind _ _ _ (fun h s => inv s /\ forall f, In f lfs -> l_err f = None -> settled h (l_cfg f))); [apply tri_get; auto|].
  intros h. apply tri_pure. intros St.
  eapply tri_bind; [apply tri_load_databases; [exact CH|]|].
  { apply Forall_forall. intros d Hd. apply (proj1 (proj2 (unique_once _))) in Hd. apply in_concat in Hd as (ds & Hds & Hd).
    apply in_map_iff in Hds as (c & <- & Hc). unfold get_configs in Hc. apply in_flat_map in Hc as (f & Hf & Hc). destruct (l_err f) eqn:Er; [destruct Hc|].
    destruct Hc as [<-|[]]. exact (St f Hf Er d Hd). }
  intros x. apply tri_pure. intros Hx. eapply (tri_bind inv _ _ (fun _ => inv)); [now apply tri_dbs|]. intros [].
  eapply tri_bind; [apply tri_check_files; [exact CH|exact G|]|].
  { split; [constructor|intros k []]. }
  intros y. apply tri_pure. intros [Hy Hn]. eapply (tri_bind inv _ _ (fun _ => final)).
  { destruct (o_update O) eqn:U; [|apply tri_ret; exact inv_final]. destruct (o_list_pkgs O) eqn:LP; [|apply tri_write_configs; auto].
    rewrite (Hn (or_intror eq_refl)). intros s H. unfold write_updated_configs. cbn. assert (Q : e_iter E _ (@nil (string * list string)) = []) by (apply Permutation_nil; apply IT || (apply Permutation_sym; apply IT)).
    rewrite Q. unfold bind. cbn. assert (Q' : e_sort E _ str_ltb (@nil string) = []) by (apply Permutation_nil; apply SO || (apply Permutation_sym; apply SO)). rewrite Q'. exact (inv_final s H). }
  intros []. eapply (tri_bind _ _ _ (fun _ => final)); [apply tri_get; auto|]. intros er. apply tri_ret. auto.
Qed.
Lemma tri_run_config qs e : o_version O = false -> o_list_eco O = false -> known_as (o_parse_as O) -> inputs E O qs e ->
  tri inv (run_config E O (map as_arg qs)) (fun _ => final) final.
Proof.
  intros V L KN In1. unfold run_config. cbv zeta. assert (CH : o_list_pkgs O = false -> checking O) by (intros Q; repeat split; assumption).
  assert (AL : tri inv (alloc empty_config) (fun _ => inv) final) by apply tri_alloc, good_empty.
  destruct (o_list_pkgs O) eqn:LP.
  { eapply (tri_bind inv _ _ (fun _ => inv)); [exact AL|]. intros cfg. eapply tri_run_files; eauto; congruence. }
  specialize (CH eq_refl).
  destruct (negb (o_no_config O) && negb (seqb (o_config O) "")) eqn:C.
  - apply andb_prop in C as [C1 C2]. apply negb_true_iff in C1, C2.
    assert (NE : o_config O <> "") by (intros Q; rewrite Q in C2; discriminate).
    eapply tri_bind; [apply tri_load_cfg; [exact CH|now apply cp_flag]|]. intros x. apply tri_pure. intros Hx. destruct x as [er|con].
    + eapply (tri_bind inv _ _ (fun _ => inv)); [apply tri_error|]. intros []. apply tri_ret. exact inv_final.
    + eapply (tri_bind inv _ _ (fun _ => inv)); [apply tri_alloc; now apply Hx|]. intros cfg. eapply tri_run_files; eauto; congruence.
  - eapply (tri_bind inv _ _ (fun _ => inv)); [exact AL|]. intros cfg. eapply tri_run_files; eauto; try congruence.
    intros Q. apply negb_true_iff in Q. rewrite Q in C. cbn in C. apply negb_false_iff, seqb_eq in C. auto.
Qed.
Lemma tri_run_body : tri inv (run_body E O) (fun _ => final) final.
Proof.
  unfold run_body. destruct (o_version O) eqn:V.
  { eapply (tri_bind inv _ _ (fun _ => inv)); [apply tri_text|]. intros []. apply tri_ret. exact inv_final. }
  destruct (o_list_eco O) eqn:L.
  { eapply (tri_bind inv _ _ (fun _ => inv)); [unfold print_known_ecosystems; tt|]. intros []. apply tri_ret. exact inv_final. }
  destruct (negb (known_parse_as (o_parse_as O))) eqn:K.
  { apply (tri_post _ _ _ (fun _ => inv)); [intros a s H; exact (inv_final s H)|]. tt. }
  apply negb_false_iff in K. apply known_as_iff in K.
  eapply (tri_bind inv _ _ (fun x s => inv s /\ exists qs e, fst x = map as_arg qs /\ inputs E O qs e)).
  { intros s H. destruct (string_dec (o_parse_as O) "csv-row") as [Q|Q].
    - unfold find_all_lockfiles. rewrite Q. cbn. split; [exact H|]. exists [("csv-row", "-")], false. split; [reflexivity|now apply in_rows].
    - assert (T : tri inv (find_all_lockfiles E O) (fun _ => inv) final).
      { unfold find_all_lockfiles. destruct (seqb _ _); [apply tri_inv|]. generalize (o_args O). induction l as [|a l IH]; cbn [find_all_loop]; [apply tri_inv|].
        destruct (split_parse_as a) as [b path]. cbv zeta. eapply (tri_bind inv _ _ (fun _ => inv)).
        - unfold find_lockfiles. destruct (match e_stat E path with KNoOpen => _ | _ => _ end) as [lk er]. eapply (tri_bind inv _ _ (fun _ => inv)); [destruct er; [apply tri_error|apply tri_inv]|]. intros []. apply tri_inv.
        - intros x. eapply (tri_bind inv _ _ (fun _ => inv)); [exact IH|]. intros y. apply tri_inv. }
      specialize (T s H). destruct (discovery E O SO EO s Q) as (qs & e & s' & D & F). rewrite D in *. split; [exact T|]. exists qs, e. split; [reflexivity|now apply in_found]. }
  intros x. apply tri_pure. intros (qs & e & Hx & In1). destruct (Nat.eqb _ 0).
  - eapply (tri_bind inv _ _ (fun _ => inv)); [apply tri_error|]. intros []. apply tri_ret. exact inv_final.
  - rewrite Hx. eapply tri_run_config; eauto.
Qed.
Lemma inv_start : inv (start fs cache).
Proof.
  split; [|reflexivity|constructor|constructor]. split; cbn; [constructor|now left|intros p; apply ca_start|lia].
Qed.
Lemma final_emit k st t s : final s -> final (snd (emit (EOut k st t) s)).
Proof.
  intros [B F]. split; [apply bounds_emit; [apply al_output|exact I|exact B]|]. intros p. cbn. destruct (F p) as [X|(c & X & Y)]; [now left|right].
  exists c. split; [apply in_app_iff; now left|exact Y].
Qed.
Lemma run_final r s' : run E O (start fs cache) = (r, s') -> final s'.
Proof.
  unfold run. pose proof (tri_run_body _ inv_start) as H. destruct (run_body E O (start fs cache)) as [r1 s1].
  assert (F : final s1) by (destruct r1; exact H). destruct (o_json O).
  - unfold print_json_results, bind, get. cbv beta iota. intros Q. injection Q as <- <-. now apply final_emit.
  - intros Q. injection Q as <- <-. exact F.
Qed.

(** ** where requests go *)
Lemma hosts r s' : run E O (start fs cache) = (r, s') -> o_no_config O = true \/ o_no_dbs O = true ->
  (forall q, In (EZip q) (s_trace s') -> o_use_dbs O = true /\ exists eco, rq_url q = "https://osv-vulnerabilities.storage.googleapis.com/" +s+ eco +s+ "/all.zip")
  /\ (forall a ps, In (EApi a ps) (s_trace s') -> o_use_api O = true /\ w_parse_uri (e_world E) "https://api.osv.dev/v1" = Some (api_url a)).
Proof.
  intros R N. pose proof (b_trace _ (proj1 (run_final r s' R))) as T. rewrite Forall_forall in T.
  assert (X : forall path, o_no_dbs O = false -> config_place path -> False) by (intros path D P; destruct P; destruct N; congruence).
  split.
  - intros q I1. specialize (T _ I1). inversion T as [| | | |d before CH OF A Ty Ca Q| | |]. cbn [rq_url]. destruct A as [U ->|l p U G Ip Np ->|path c errs D P L Hd].
    + discriminate.
    + split; [exact U|]. now exists (p_eco p).
    + now destruct (X path D P).
  - intros a ps I1. specialize (T _ I1). inversion T as [| | | | |d a' l CH OF A Ty (name & u & U1 & Ha) G Q1| |]. destruct A as [U ->|l' p U G' Ip Np ->|path c errs D P L Hd].
    + split; [exact U|]. rewrite Ha. exact U1.
    + discriminate.
    + now destruct (X path D P).
Qed.
Lemma quiet r s' : run E O (start fs cache) = (r, s') -> o_offline O = true \/ ~ checking O ->
  (forall p, s_cache s' p = cache p) /\ (forall e, In e (s_trace s') -> match e with EZip _ | EApi _ _ => False | _ => True end)
  /\ (o_update O = false \/ ~ checking O -> forall p, s_files s' p = fs p).
Proof.
  intros R N. destruct (run_final r s' R) as [[T C _ _] F]. rewrite Forall_forall in T.
  assert (X : forall e, In e (s_trace s') -> match e with EZip _ | EApi _ _ => False | _ => True end).
  { intros e He. specialize (T e He). destruct T; auto; destruct N; congruence || contradiction. }
  split; [|split; [exact X|]].
  - intros p. destruct (C p) as [Q|(q & I1 & _)]; [exact Q|]. destruct (X _ I1).
  - intros U p. destruct (F p) as [Q|(c & I1 & _)]; [exact Q|]. specialize (T _ I1). inversion T. destruct U; congruence || contradiction.
Qed.
End Touch.
