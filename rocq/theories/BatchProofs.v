From Coq Require Import Lia.
From Verif Require Import GoStr GoStrFacts GoSort GoSortFacts Types Json Osv MemDB Path Api ApiSpec ErrGroup ErrGroupProofs ApiProofs ZipDB DirDB DbConfig Configer GoMap Lockfile Csv Ecosystems Report Main MainSpec ApiRunSpec BatchSpec.
Local Open Scope Z_scope.

Lemma gsteps_mono {A X} n limit (f g : nat -> X + A -> Prop) k s s' : (forall i x, f i x -> g i x) -> gsteps n limit f k s s' -> gsteps n limit g k s s'.
Proof. intros H R. induction R as [|k s1 s2 s3 R IH St]; [constructor|]. econstructor; [exact IH|]. destruct St; constructor; auto. Qed.

(** ** one check *)
Section Check.
Variable S : Sorter.
Variable dec_osv : string -> OSV * bool.
Variable post : string -> string -> http -> Prop.
Variable get : string -> http -> Prop.
Variable answer : Pkg -> list string.
Lemma slots_alone db batches k s : one_by_one post (bulk_endpoint db) answer ->
  gsteps (List.length batches) 100 (serve_batch post db batches) k (g_init (List.length batches)) s -> g_done (List.length batches) s ->
  g_slots s = map (fun b => Some (map answer b)) batches /\ g_err s = None.
Proof.
  intros W R D. destruct (group_outcome _ _ _ _ _ R D) as (outs & L & F & Sl & Ne & _).
  assert (Q : outs = map (fun b => inr (map answer b)) batches).
  { apply nth_error_ext'; [now rewrite map_length|]. intros i x y Hx Hy. destruct (F _ _ Hx) as (h & P & ->).
    assert (I : (i < List.length batches)%nat) by (rewrite <- L; apply nth_error_Some; congruence).
    rewrite nth_error_map, (nth_error_nth' _ [] I) in Hy. injection Hy as <-. apply batch_reply_ok. now apply W. }
  subst outs. split; [now rewrite Sl, map_map|]. apply Ne. intros e I. apply in_map_iff in I as (b & H & _). discriminate H.
Qed.
Lemma gather_alone batches : gather (map (fun b => Some (map answer b)) batches) = map (fun p => map id_only (answer p)) (List.concat batches).
Proof. induction batches as [|b bs IH]; [reflexivity|]. cbn [map List.concat]. rewrite map_app, <- IH. unfold gather. cbn [flat_map]. now rewrite map_map. Qed.
Lemma same_endpoints a b : same_server a b -> bulk_endpoint a = bulk_endpoint b /\ forall id, osv_endpoint a id = osv_endpoint b id.
Proof. intros (_ & _ & U). unfold bulk_endpoint, osv_endpoint. rewrite U. auto. Qed.
Lemma check_alike a b pkgs r p g r' p' g' : (forall u h h', get u h -> get u h' -> h = h') -> one_by_one post (bulk_endpoint a) answer ->
  same_server a b -> db_ok a pkgs -> db_ok b pkgs ->
  api_check S dec_osv post get a pkgs r p g -> api_check S dec_osv post get b pkgs r' p' g' ->
  r = r' /\ Permutation g g' /\ exists found, r = Ok (inr found) /\ map (map o_id) found = map answer pkgs.
Proof.
  intros Dg W SS Ka Kb H H'. destruct (same_endpoints _ _ SS) as [U V]. pose proof W as W'. rewrite U in W'.
  destruct (batch_pkgs_spec pkgs (api_batch a) (proj1 Ka) (proj2 Ka)) as (ba & Ba & CA). destruct (batch_pkgs_spec pkgs (api_batch b) (proj1 Kb) (proj2 Kb)) as (bb & Bb & CB).
  destruct CA as (CA & _), CB as (CB & _).
  destruct H as [E1|b1 k1 s1 e1 E1 R1 D1 Er1|b1 k1 s1 o1 g1 E1 R1 D1 Er1 v1 i1 F1]; [congruence| |]; rewrite Ba in E1; injection E1 as <-.
  { destruct (slots_alone _ _ _ _ W R1 D1) as [_ N]. congruence. }
  destruct H' as [E2|b2 k2 s2 e2 E2 R2 D2 Er2|b2 k2 s2 o2 g2 E2 R2 D2 Er2 v2 i2 F2]; [congruence| |]; rewrite Bb in E2; injection E2 as <-.
  { destruct (slots_alone _ _ _ _ W' R2 D2) as [_ N]. congruence. }
  destruct (slots_alone _ _ _ _ W R1 D1) as [S1 _]. destruct (slots_alone _ _ _ _ W' R2 D2) as [S2 _].
  assert (V1 : v1 = map (fun p => map id_only (answer p)) pkgs) by (unfold v1; now rewrite S1, gather_alone, CA).
  assert (V2 : v2 = map (fun p => map id_only (answer p)) pkgs) by (unfold v2; now rewrite S2, gather_alone, CB).
  assert (I : i1 = i2) by (unfold i1, i2; now rewrite V1, V2). clearbody i1 i2. subst i2.
  destruct F1 as (k3 & s3 & R3 & D3 & -> & ->). destruct F2 as (k4 & s4 & R4 & D4 & -> & ->).
  assert (DF : forall i x y, serve_fetch dec_osv get b i1 i x -> serve_fetch dec_osv get b i1 i y -> x = y).
  { intros i x y (h & P1 & ->) (h' & P2 & ->). now rewrite (Dg _ _ _ P1 P2). }
  assert (R3' : gsteps (List.length i1) 200 (serve_fetch dec_osv get b i1) k3 (g_init (List.length i1)) s3).
  { assert (X : forall i x, serve_fetch dec_osv get a i1 i x -> serve_fetch dec_osv get b i1 i x).
    { intros i x (h & P & Q). exists h. now rewrite <- V. }
    exact (gsteps_mono _ _ _ _ _ _ _ X R3). }
  destruct (group_det _ _ _ _ _ _ _ DF R3' D3 R4 D4) as [Sl _].
  destruct (group_outcome _ _ _ _ _ R3' D3) as (_ & _ & _ & _ & _ & _ & P3). destruct (group_outcome _ _ _ _ _ R4 D4) as (_ & _ & _ & _ & _ & _ & P4).
  rewrite V1, V2, Sl. split; [reflexivity|]. split.
  - rewrite (map_ext _ _ (fun i => V (nth i i1 ""))). apply Permutation_map. now rewrite P3, P4.
  - eexists. split; [reflexivity|]. rewrite !map_map. apply map_ext. intros q. rewrite !map_map. rewrite <- (map_id (answer q)) at 2. apply map_ext. intros id.
    match goal with |- o_id (find_or_default ?l ?d) = _ => destruct (find_or_default_spec l d) as [[_ Q]|[-> _]]; [exact Q|reflexivity] end.
Qed.
End Check.
Lemma served_indifferent post get E answer n m : served post get E -> (forall u h h', get u h -> get u h' -> h = h') ->
  (forall a, one_by_one post (bulk_endpoint a) answer) -> 1 <= n < 2 ^ 63 -> 1 <= m < 2 ^ 63 -> indifferent E n m.
Proof.
  intros Sv Dg W N M k a b pkgs SS <- <- L. destruct (Sv k a pkgs) as (p & g & H). destruct (Sv k b pkgs) as (p' & g' & H').
  apply (check_alike _ _ post get answer a b pkgs _ p g _ p' g' Dg (W a) SS (conj N L) (conj M L) H H').
Qed.

(** ** two runs *)
Section Run.
Variable E : Env.
Variable O : Opts.
Variable m : Z.
Notation n := (o_batch O).
Notation O' := (with_batch O m).
Hypothesis Hn : 1 <= n.
Hypothesis Hm : 1 <= m.
Hypothesis Hapi : indifferent E n m.
Hypothesis Hbound : bounded E O.

Inductive same_db : DB -> DB -> Prop :=
| sd_same : forall d, same_db d d
| sd_api : forall name ident url, same_db (ApiD (mkAPI name ident url n)) (ApiD (mkAPI name ident url m)).
Record brel (s s' : St) : Prop := mkBrel {
  b_trace : Forall2 (rebatched E n m) (s_trace s) (s_trace s');
  b_err : s_errored s = s_errored s';
  b_res : s_results s = s_results s';
  b_heap : s_heap s = s_heap s';
  b_dbs : Forall2 same_db (s_dbs s) (s_dbs s');
  b_files : s_files s = s_files s';
  b_cache : s_cache s = s_cache s' }.
Definition br {A} (RA : A -> A -> Prop) (x x' : M A) : Prop := forall s s', brel s s' ->
  match x s, x' s' with
  | (Ok a, s1), (Ok a', s1') => RA a a' /\ brel s1 s1'
  | (Panic, s1), (Panic, s1') => brel s1 s1'
  | _, _ => False
  end.
Lemma br_bind {A B} (RA : A -> A -> Prop) (RB : B -> B -> Prop) x x' f f' :
  br RA x x' -> (forall a a', RA a a' -> br RB (f a) (f' a')) -> br RB (bind x f) (bind x' f').
Proof.
  intros H K s s' L. specialize (H s s' L). unfold bind. destruct (x s) as [[a|] s1], (x' s') as [[a'|] s1']; try contradiction; auto.
  destruct H as [H1 H2]. exact (K a a' H1 s1 s1' H2).
Qed.
Lemma br_eq {A B} (RB : B -> B -> Prop) (x x' : M A) f f' : br eq x x' -> (forall a, br RB (f a) (f' a)) -> br RB (bind x f) (bind x' f').
Proof. intros H K. apply (br_bind eq); [exact H|]. now intros a a' <-. Qed.
Lemma br_ret {A} (RA : A -> A -> Prop) a a' : RA a a' -> br RA (ret a) (ret a').
Proof. intros H s s' L. cbn. auto. Qed.
Lemma br_lift {A} (r : res A) : br eq (lift r) (lift r).
Proof. intros s s' L. cbn. destruct r; auto. Qed.
Lemma br_each {A} (f f' : A -> M unit) l : (forall a, br eq (f a) (f' a)) -> br eq (each f l) (each f' l).
Proof. intros H. induction l as [|a l IH]; cbn [each]; [now apply br_ret|]. apply br_eq; auto. Qed.
Lemma br_emit e e' : rebatched E n m e e' -> br eq (emit e) (emit e').
Proof. intros H s s' []. cbn. split; [reflexivity|]. constructor; cbn; auto. apply Forall2_app; auto. Qed.
Lemma br_errored : br eq set_errored set_errored. Proof. intros s s' []. cbn. split; [reflexivity|]. now constructor. Qed.
Lemma br_result r : br eq (print_result E O r) (print_result E O' r).
Proof.
  unfold print_result. change (o_json O') with (o_json O). destruct (o_json O); [|apply br_emit; constructor].
  intros s s' []. cbn. split; [reflexivity|]. constructor; cbn [s_trace s_errored s_results s_heap s_dbs s_files s_cache]; auto. now rewrite b_res0.
Qed.
Lemma br_set_heap h : br eq (set_heap h) (set_heap h). Proof. intros s s' []. cbn. split; [reflexivity|]. now constructor. Qed.
Lemma br_set_dbs d d' : Forall2 same_db d d' -> br eq (set_dbs d) (set_dbs d'). Proof. intros H s s' []. cbn. split; [reflexivity|]. now constructor. Qed.
Lemma br_set_files h : br eq (set_files h) (set_files h). Proof. intros s s' []. cbn. split; [reflexivity|]. now constructor. Qed.
Lemma br_set_cache h : br eq (set_cache h) (set_cache h). Proof. intros s s' []. cbn. split; [reflexivity|]. now constructor. Qed.
Lemma br_heap : br eq (get s_heap) (get s_heap). Proof. intros s s' N. cbn. split; [apply N|exact N]. Qed.
Lemma br_dbs : br (Forall2 same_db) (get s_dbs) (get s_dbs). Proof. intros s s' N. cbn. split; [apply N|exact N]. Qed.
Lemma br_files : br eq (get s_files) (get s_files). Proof. intros s s' N. cbn. split; [apply N|exact N]. Qed.
Lemma br_cache : br eq (get s_cache) (get s_cache). Proof. intros s s' N. cbn. split; [apply N|exact N]. Qed.
Lemma br_results : br eq (get s_results) (get s_results). Proof. intros s s' N. cbn. split; [apply N|exact N]. Qed.
Lemma br_get_errored : br eq (get s_errored) (get s_errored). Proof. intros s s' N. cbn. split; [apply N|exact N]. Qed.
Ltac bj := repeat (cbv zeta; match goal with
  | H : br _ ?x ?y |- br _ ?x ?y => exact H
  | |- br _ (bind _ _) (bind _ _) => apply br_eq; [|intros ?]
  | |- br _ (ret _) (ret _) => apply br_ret; reflexivity
  | |- br _ (lift _) (lift _) => apply br_lift
  | |- br _ (each _ _) (each _ _) => apply br_each; intros ?
  | |- br _ (emit _) (emit _) => apply br_emit; apply rb_same
  | |- br _ (print_error _) (print_error _) => unfold print_error
  | |- br _ (print_text _ _) (print_text _ _) => apply br_emit; apply rb_same
  | |- br _ (print_result _ _ _) (print_result _ _ _) => apply br_result
  | |- br _ set_errored set_errored => apply br_errored
  | |- br _ (set_heap _) (set_heap _) => apply br_set_heap
  | |- br _ (set_files _) (set_files _) => apply br_set_files
  | |- br _ (set_cache _) (set_cache _) => apply br_set_cache
  | |- br _ (get s_heap) (get s_heap) => exact br_heap
  | |- br _ (get s_files) (get s_files) => exact br_files
  | |- br _ (get s_cache) (get s_cache) => exact br_cache
  | |- br _ (get s_results) (get s_results) => exact br_results
  | |- br _ (get s_errored) (get s_errored) => exact br_get_errored
  | H : forall _, br _ _ _ |- _ => solve [apply H]
  | H : forall _ _, br _ _ _ |- _ => solve [apply H]
  | H : forall _ _ _, br _ _ _ |- _ => solve [apply H]
  | |- br _ (if ?b then _ else _) (if ?b then _ else _) => destruct b
  | |- br _ (let '(_, _) := ?b in _) (let '(_, _) := ?b in _) => destruct b
  | |- br _ (match ?b with _ => _ end) (match ?b with _ => _ end) => destruct b
  end).

(** ** databases *)
Lemma text_desc pre post d d' : same_db d d' -> br eq (print_text O (pre +s+ db_desc E d +s+ post)) (print_text O' (pre +s+ db_desc E d' +s+ post)).
Proof.
  intros H. unfold print_text. change (o_json O') with (o_json O). apply br_emit. destruct H as [d|name ident url]; [apply rb_same|].
  assert (Q : forall k, pre +s+ db_desc E (ApiD (mkAPI name ident url k)) +s+ post = (pre +s+ " (") +s+ sizes E k +s+ (")" +s+ post)).
  { intros k. change (db_desc E (ApiD (mkAPI name ident url k))) with (" (" +s+ sizes E k +s+ ")"). now rewrite !sapp_assoc. }
  rewrite !Q. apply rb_text.
Qed.
Inductive rload : res (load_err + DB) -> res (load_err + DB) -> Prop :=
| rl_panic : rload Panic Panic
| rl_err : forall e, rload (Ok (inl e)) (Ok (inl e))
| rl_db : forall d d', same_db d d' -> rload (Ok (inr d)) (Ok (inr d')).
Lemma load_batch W file c names : let x := load_db W file c (o_offline O) n names in let x' := load_db W file c (o_offline O) m names in
  rload (fst (fst x)) (fst (fst x')) /\ snd (fst x) = snd (fst x') /\ snd x = snd x'.
Proof.
  assert (R : forall r, rload r r) by (intros [[e|d]|]; constructor; constructor).
  cbv zeta. unfold load_db. destruct (seqb (dc_type c) "zip"); [auto|]. destruct (seqb (dc_type c) "api"); [|auto].
  cbn [fst snd]. split; [|auto]. unfold new_api_db. destruct (o_offline O); [apply R|]. rewrite (proj2 (Z.ltb_ge n 1) Hn), (proj2 (Z.ltb_ge m 1) Hm).
  destruct (w_parse_uri W (dc_url c)); [|apply R]. constructor. apply sd_api.
Qed.
Definition rloaded (x x' : list DB * bool) : Prop := Forall2 same_db (fst x) (fst x') /\ snd x = snd x'.
Lemma br_load_loop names : forall configs, br rloaded (load_loop E O configs names) (load_loop E O' configs names).
Proof.
  induction configs as [|c configs IH]; cbn [load_loop]; [apply br_ret; split; [constructor|reflexivity]|].
  apply br_eq; [bj|]. intros _. apply br_eq; [bj|]. intros _. apply br_eq; [bj|]. intros cache. cbv zeta. change (o_offline O') with (o_offline O). change (o_batch O') with m.
  pose proof (load_batch (e_world E) (cache (e_cache_path E (dc_url c))) c names) as L. cbv zeta in L.
  destruct (load_db (e_world E) _ c _ n names) as [[r w] rqs]. destruct (load_db (e_world E) _ c _ m names) as [[r' w'] rqs']. cbn [fst snd] in L. destruct L as (L & <- & <-).
  apply br_eq; [bj|]. intros _. apply br_eq; [bj|]. intros _. destruct L as [|e|d d' D].
  - intros s s' N. exact N.
  - change (br rloaded (emit (ELoadFailed c e) ;; print_load_err E e ;; (y <- load_loop E O configs names ; ret (fst y, true)))
                       (emit (ELoadFailed c e) ;; print_load_err E e ;; (y <- load_loop E O' configs names ; ret (fst y, true)))).
    apply br_eq; [bj|]. intros _. apply br_eq; [unfold print_load_err; bj|]. intros _. eapply br_bind; [exact IH|]. intros y y' [Y _]. apply br_ret. now split.
  - change (br rloaded (print_text O (db_desc E d +s+ newline) ;; (y <- load_loop E O configs names ; ret (d :: fst y, snd y)))
                       (print_text O' (db_desc E d' +s+ newline) ;; (y <- load_loop E O' configs names ; ret (d' :: fst y, snd y)))).
    apply br_eq; [exact (text_desc "" newline d d' D)|]. intros _. eapply br_bind; [exact IH|]. intros y y' [Y Z]. apply br_ret. split; [now constructor|exact Z].
Qed.
Lemma br_load configs names : br rloaded (load_databases E O configs names) (load_databases E O' configs names).
Proof.
  unfold load_databases. change (o_list_pkgs O') with (o_list_pkgs O). destruct (o_list_pkgs O); [apply br_ret; split; [constructor|reflexivity]|].
  apply br_eq; [bj|]. intros _. eapply br_bind; [apply br_load_loop|]. intros y y' Y. apply br_eq; [bj|]. intros _. now apply br_ret.
Qed.
Lemma br_load_cfg path : br eq (load_cfg E path) (load_cfg E path). Proof. unfold load_cfg, report_db_errs. bj. Qed.
Lemma br_find_cfg dir : br eq (find_cfg E dir) (find_cfg E dir). Proof. pose proof br_load_cfg. unfold find_cfg. bj. Qed.
Lemma br_alloc c : br eq (alloc c) (alloc c). Proof. unfold alloc. bj. Qed.
Lemma br_load_at c : br eq (load_at c) (load_at c). Proof. unfold load_at. bj. Qed.
Definition small (f : LFile) : Prop := zlen (lf_pkgs (l_lock f)) <= 2 ^ 62.
Definition rfiles (x x' : list LFile) : Prop := x = x' /\ Forall small x.
Lemma br_lift_parse p : br (fun x x' => x = x' /\ zlen (lf_pkgs (fst x)) <= 2 ^ 62) (lift (parse_lockfile E O p)) (lift (parse_lockfile E O' p)).
Proof.
  change (parse_lockfile E O' p) with (parse_lockfile E O p). intros s s' N. cbn. destruct (parse_lockfile E O p) as [[l e]|] eqn:P; [|exact N].
  split; [split; [reflexivity|exact (Hbound p l e P)]|exact N].
Qed.
Lemma br_read : forall paths cl cfg, br rfiles (read_all E O paths cl cfg) (read_all E O' paths cl cfg).
Proof.
  induction paths as [|p ps IH]; intros cl cfg; cbn [read_all]; [apply br_ret; split; [reflexivity|constructor]|]. cbv zeta.
  assert (F : forall c, br rfiles (x <- lift (parse_lockfile E O p) ; rest <- read_all E O ps cl c ; ret (mkLFile (fst x) c (snd x) :: rest))
                                  (x <- lift (parse_lockfile E O' p) ; rest <- read_all E O' ps cl c ; ret (mkLFile (fst x) c (snd x) :: rest))).
  { intros c. eapply br_bind; [apply br_lift_parse|]. intros x x' [<- X]. eapply br_bind; [apply IH|]. intros r r' [<- R]. apply br_ret. split; [reflexivity|]. now constructor. }
  destruct cl.
  - apply br_eq; [apply br_find_cfg|]. intros [e|con].
    + eapply br_bind; [apply IH|]. intros r r' [<- R]. apply br_ret. split; [reflexivity|]. constructor; [unfold small, zlen; cbn; lia|exact R].
    + apply br_eq; [apply br_alloc|]. intros c. apply F.
  - apply br_eq; [apply br_load_at|]. intros c. destruct (negb _); [|apply F]. apply br_eq; [apply br_alloc|]. intros c'. apply F.
Qed.
Lemma br_adjust fl : br eq (adjust_all E O fl) (adjust_all E O' fl).
Proof. unfold adjust_all. apply br_each. intros f. unfold adjust_one. change (o_no_dbs O') with (o_no_dbs O). change (o_use_api O') with (o_use_api O). change (o_use_dbs O') with (o_use_dbs O). bj. Qed.

(** ** checking *)
Lemma same_at ds ds' : Forall2 same_db ds ds' -> forall i, match nth_error ds i, nth_error ds' i with Some d, Some d' => same_db d d' | None, None => True | _, _ => False end.
Proof. induction 1; intros [|i]; cbn; auto. apply IHForall2. Qed.
Lemma same_upd ds ds' d d' : Forall2 same_db ds ds' -> same_db d d' -> forall i, Forall2 same_db (upd ds i d) (upd ds' i d').
Proof. intros H D. induction H; intros [|i]; cbn; constructor; auto. Qed.
Lemma same_ident d d' : same_db d d' -> db_ident d = db_ident d'. Proof. now destruct 1. Qed.
Lemma same_name d d' : same_db d d' -> db_name d = db_name d'. Proof. now destruct 1. Qed.
Lemma same_use ds ds' cs : Forall2 same_db ds ds' -> for_configs ds cs = for_configs ds' cs.
Proof.
  unfold for_configs. intros H. generalize 0%nat. induction H as [|d d' ds ds' D H IH]; intros k; [reflexivity|].
  cbn [List.length seq combine flat_map]. rewrite (same_ident _ _ D). f_equal. apply IH.
Qed.
Definition rchecked (x x' : res ((api_err + list (list OSV)) * DB)) : Prop :=
  match x, x' with Ok (r, d), Ok (r', d') => r = r' /\ same_db d d' | Panic, Panic => True | _, _ => False end.
Lemma check_db_same k d d' pkgs : same_db d d' -> zlen pkgs <= 2 ^ 62 -> rchecked (check_db E k d pkgs) (check_db E k d' pkgs).
Proof.
  intros H L. destruct H as [d|name ident url].
  - destruct (check_db E k d pkgs) as [[r d1]|]; cbn; auto. split; [reflexivity|constructor].
  - cbn [check_db]. rewrite (Hapi k (mkAPI name ident url n) (mkAPI name ident url m) pkgs (conj eq_refl (conj eq_refl eq_refl)) eq_refl eq_refl L).
    destruct (e_api E k _ pkgs) as [r|]; cbn; auto. split; [reflexivity|apply sd_api].
Qed.
Lemma br_check_dbs k lockf : zlen (lf_pkgs lockf) <= 2 ^ 62 -> forall use, br eq (check_dbs E k use lockf) (check_dbs E k use lockf).
Proof.
  intros L. induction use as [|i use IH]; cbn [check_dbs]; [now apply br_ret|]. eapply br_bind; [exact br_dbs|]. intros ds ds' D.
  pose proof (same_at _ _ D i) as N. destruct (nth_error ds i) as [d|], (nth_error ds' i) as [d'|]; try contradiction; [|apply br_lift].
  apply br_eq. { destruct N as [d|name ident url]; [destruct d; bj|]. apply br_emit, rb_api. now repeat split. }
  intros _. eapply (br_bind (fun x x' => fst x = fst x' /\ same_db (snd x) (snd x'))).
  { pose proof (check_db_same k d d' _ N L) as C. intros s s' B. cbn. destruct (check_db E k d _) as [[r e]|], (check_db E k d' _) as [[r' e']|]; cbn in C; try contradiction; auto. }
  intros [r e] [r' e'] [C1 C2]. cbn in C1, C2. subst r'. apply br_eq; [apply br_set_dbs; now apply same_upd|]. intros _. bj.
Qed.
Lemma br_check k use lockf ign : zlen (lf_pkgs lockf) <= 2 ^ 62 -> br eq (check_lockfile E k use lockf ign) (check_lockfile E k use lockf ign).
Proof. intros L. unfold check_lockfile. apply br_eq; [now apply br_check_dbs|]. intros v. bj. Qed.
Lemma br_each_use ds ds' use : Forall2 same_db ds ds' ->
  br eq (each (fun i => match nth_error ds i with Some d => print_text O ("  Using db " +s+ e_col E "hicyan" (db_name d) +s+ db_desc E d +s+ newline) | None => ret tt end) use)
        (each (fun i => match nth_error ds' i with Some d => print_text O' ("  Using db " +s+ e_col E "hicyan" (db_name d) +s+ db_desc E d +s+ newline) | None => ret tt end) use).
Proof.
  intros D. apply br_each. intros i. pose proof (same_at _ _ D i) as N. destruct (nth_error ds i) as [d|], (nth_error ds' i) as [d'|]; try contradiction; [|now apply br_ret].
  rewrite <- (same_name _ _ N). pose proof (text_desc ("  Using db " +s+ e_col E "hicyan" (db_name d)) newline d d' N) as T. rewrite !sapp_assoc in T. exact T.
Qed.
Lemma br_check_files : forall fl, Forall small fl -> forall k exit seen, br eq (check_files E O fl k exit seen) (check_files E O' fl k exit seen).
Proof.
  induction 1 as [|f fl F _ IH]; intros k exit seen; cbn [check_files]; [now apply br_ret|].
  change (o_no_ignores O') with (o_no_ignores O). change (o_ignores O') with (o_ignores O). change (o_update O') with (o_update O). change (o_list_pkgs O') with (o_list_pkgs O).
  apply br_eq; [bj|]. intros _. destruct (l_err f); [bj; apply IH|]. cbv zeta. apply br_eq; [bj|]. intros h. apply br_eq; [bj|]. intros _. apply br_eq; [bj|]. intros _.
  destruct (o_list_pkgs O); [bj; apply IH|]. apply br_eq; [bj|]. intros _. eapply br_bind; [exact br_dbs|]. intros ds ds' D. rewrite <- (same_use _ _ _ D).
  apply br_eq; [now apply br_each_use|]. intros _. apply br_eq; [bj|]. intros _. apply br_eq; [now apply br_check|]. intros x.
  apply br_eq.
  { apply br_emit.
    erewrite (flat_map_ext (fun i => match nth_error ds' i with Some d => [db_ident d] | None => [] end)); [apply rb_same|].
    intros i. cbv beta. pose proof (same_at _ _ D i) as N. destruct (nth_error ds i) as [d|], (nth_error ds' i) as [d'|]; try contradiction; [|reflexivity]. now rewrite (same_ident _ _ N). }
  intros _. apply br_eq; [apply br_result|]. intros _. apply IH.
Qed.
Lemma br_write seen : br eq (write_updated_configs E O seen) (write_updated_configs E O' seen).
Proof.
  assert (H : forall l, br eq (update_all E l) (update_all E l)). { induction l as [|x l IH]; cbn [update_all]; [now apply br_ret|]. unfold update_one. destruct x. bj. }
  unfold write_updated_configs. bj.
Qed.
Lemma br_find_all : br eq (find_all_lockfiles E O) (find_all_lockfiles E O').
Proof.
  assert (F : forall path a, br eq (find_lockfiles E path a) (find_lockfiles E path a)). { intros path a. unfold find_lockfiles. destruct (e_stat E path); bj. }
  assert (H : forall l, br eq (find_all_loop E O l) (find_all_loop E O' l)). { induction l as [|x l IH]; cbn [find_all_loop]; [bj|]. destruct (split_parse_as x). change (o_parse_as O') with (o_parse_as O). bj. }
  unfold find_all_lockfiles. change (o_parse_as O') with (o_parse_as O). change (o_args O') with (o_args O). bj.
Qed.
Lemma br_run_files paths cl cfg : br eq (run_files E O paths cl cfg) (run_files E O' paths cl cfg).
Proof.
  unfold run_files. eapply br_bind; [apply br_read|]. intros fl fl' [<- F]. apply br_eq; [apply br_adjust|]. intros _. apply br_eq; [exact br_heap|]. intros h.
  eapply br_bind; [apply br_load|]. intros x x' [X1 X2]. apply br_eq; [now apply br_set_dbs|]. intros _. rewrite <- X2. apply br_eq; [now apply br_check_files|]. intros y.
  change (o_update O') with (o_update O). pose proof br_write. bj.
Qed.
Lemma br_body : br eq (run_body E O) (run_body E O').
Proof.
  unfold run_body. change (o_version O') with (o_version O). destruct (o_version O); [bj|]. change (o_list_eco O') with (o_list_eco O).
  destruct (o_list_eco O); [unfold print_known_ecosystems; generalize known_ecosystems; intros ke; bj|].
  change (o_parse_as O') with (o_parse_as O).
  destruct (negb _); [generalize (list_parsers (e_sort E) (e_iter E)); intros lp; bj|]. apply br_eq; [apply br_find_all|]. intros x.
  change (o_args O') with (o_args O). destruct (Nat.eqb _ _); [bj|]. unfold run_config. change (o_list_pkgs O') with (o_list_pkgs O). change (o_no_config O') with (o_no_config O). change (o_config O') with (o_config O).
  pose proof br_alloc. pose proof br_run_files. pose proof br_load_cfg. bj.
Qed.
Lemma batch_run fs cache r s r' s' : run E O (start fs cache) = (r, s) -> run E O' (start fs cache) = (r', s') ->
  r = r' /\ Forall2 (rebatched E n m) (s_trace s) (s_trace s') /\ s_files s = s_files s' /\ s_cache s = s_cache s'.
Proof.
  intros R R'. pose proof (br_body (start fs cache) (start fs cache)) as B. unfold run in R, R'. change (o_json O') with (o_json O) in R'.
  destruct (run_body E O (start fs cache)) as [r1 s1]. destruct (run_body E O' (start fs cache)) as [r2 s2].
  assert (L : r1 = r2 /\ brel s1 s2). { assert (L0 : brel (start fs cache) (start fs cache)) by (constructor; constructor || reflexivity). specialize (B L0). destruct r1, r2; try contradiction; [destruct B as [<- B]; auto|auto]. }
  destruct L as [-> []]. destruct (o_json O); injection R as <- <-; injection R' as <- <-; cbn; auto.
  split; [reflexivity|]. split; [|auto]. apply Forall2_app; [assumption|]. rewrite b_res0. constructor; constructor.
Qed.
End Run.
