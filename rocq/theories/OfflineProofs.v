From Verif Require Import GoStr GoStrFacts GoSort Types Json Osv MemDB Path Api ZipDB ZipSpec ZipProofs DirDB DbConfig Configer GoMap Lockfile Ecosystems Report Main MainSpec MainTrace MainProofs RunProofs OfflineSpec.

Lemma without_app a b : without_requests (a ++ b) = without_requests a ++ without_requests b. Proof. apply filter_app. Qed.

(** ** states that differ in the requests made and the caches *)
Record twin (c1 c2 : ZipDB.files) (s s' : St) : Prop := mkTwin {
  tw_trace : s_trace s' = without_requests (s_trace s);
  tw_err : s_errored s' = s_errored s;
  tw_res : s_results s' = s_results s;
  tw_heap : s_heap s' = s_heap s;
  tw_dbs : s_dbs s' = s_dbs s;
  tw_files : s_files s' = s_files s;
  tw_c1 : s_cache s = c1;
  tw_c2 : s_cache s' = c2 }.
Definition blind {A} (m : M A) : Prop :=
  forall c1 c2 s s', twin c1 c2 s s' -> fst (m s') = fst (m s) /\ twin c1 c2 (snd (m s)) (snd (m s')).
Lemma blind_bind {A B} (m : M A) (f : A -> M B) : blind m -> (forall a, blind (f a)) -> blind (bind m f).
Proof.
  intros H K c1 c2 s s' N. destruct (H c1 c2 s s' N) as [Q1 Q2]. unfold bind. destruct (m s) as [r1 t1], (m s') as [r2 t2]. cbn in Q1, Q2. subst r2.
  destruct r1 as [a|]; [now apply K|auto].
Qed.
Lemma blind_ret {A} (a : A) : blind (ret a). Proof. intros c1 c2 s s' N. auto. Qed.
Lemma blind_lift {A} (r : res A) : blind (lift r). Proof. intros c1 c2 s s' N. auto. Qed.
Lemma blind_each {A} (f : A -> M unit) l : (forall a, blind (f a)) -> blind (each f l).
Proof. intros H. induction l as [|a l IH]; [apply blind_ret|]. cbn [each]. apply blind_bind; auto. Qed.
Lemma blind_emit e : is_request e = false -> blind (emit e).
Proof.
  intros Q c1 c2 s s' []. split; [reflexivity|]. constructor; cbn; auto. rewrite without_app, tw_trace0. cbn. now rewrite Q.
Qed.
Lemma blind_errored : blind set_errored. Proof. intros c1 c2 s s' []. split; [reflexivity|]. now constructor. Qed.
Lemma blind_result r : blind (add_result r). Proof. intros c1 c2 s s' []. split; [reflexivity|]. constructor; cbn [add_result snd s_trace s_errored s_results s_heap s_dbs s_files s_cache]; auto. now rewrite tw_res0. Qed.
Lemma blind_set_heap h : blind (set_heap h). Proof. intros c1 c2 s s' []. split; [reflexivity|]. now constructor. Qed.
Lemma blind_set_dbs h : blind (set_dbs h). Proof. intros c1 c2 s s' []. split; [reflexivity|]. now constructor. Qed.
Lemma blind_set_files h : blind (set_files h). Proof. intros c1 c2 s s' []. split; [reflexivity|]. now constructor. Qed.
Lemma blind_heap : blind (get s_heap). Proof. intros c1 c2 s s' N. split; [cbn; f_equal; apply N|exact N]. Qed.
Lemma blind_dbs : blind (get s_dbs). Proof. intros c1 c2 s s' N. split; [cbn; f_equal; apply N|exact N]. Qed.
Lemma blind_files : blind (get s_files). Proof. intros c1 c2 s s' N. split; [cbn; f_equal; apply N|exact N]. Qed.
Lemma blind_results : blind (get s_results). Proof. intros c1 c2 s s' N. split; [cbn; f_equal; apply N|exact N]. Qed.
Lemma blind_get_errored : blind (get s_errored). Proof. intros c1 c2 s s' N. split; [cbn; f_equal; apply N|exact N]. Qed.
Ltac bb := repeat (cbv zeta; match goal with
  | |- blind (bind _ _) => apply blind_bind; [|intros ?]
  | |- blind (ret _) => apply blind_ret
  | |- blind (lift _) => apply blind_lift
  | |- blind (each _ _) => apply blind_each; intros ?
  | |- blind (emit _) => apply blind_emit; reflexivity
  | |- blind (print_error _) => unfold print_error
  | |- blind (print_text _ _) => unfold print_text
  | |- blind (print_result _ _ _) => unfold print_result
  | |- blind set_errored => apply blind_errored
  | |- blind (add_result _) => apply blind_result
  | |- blind (set_heap _) => apply blind_set_heap
  | |- blind (set_dbs _) => apply blind_set_dbs
  | |- blind (set_files _) => apply blind_set_files
  | |- blind (get s_heap) => apply blind_heap
  | |- blind (get s_dbs) => apply blind_dbs
  | |- blind (get s_files) => apply blind_files
  | |- blind (get s_results) => apply blind_results
  | |- blind (get s_errored) => apply blind_get_errored
  | H : forall _, blind _ |- _ => solve [apply H]
  | H : forall _ _, blind _ |- _ => solve [apply H]
  | H : forall _ _ _, blind _ |- _ => solve [apply H]
  | H : blind _ |- _ => exact H
  | |- blind (if ?b then _ else _) => destruct b
  | |- blind (let '(_, _) := ?b in _) => destruct b
  | |- blind (match ?b with _ => _ end) => destruct b
  end).

Section Run.
Variable E : Env.
Variable O : Opts.
Lemma blind_load_cfg path : blind (load_cfg E path).
Proof. unfold load_cfg, report_db_errs. bb. Qed.
Lemma blind_find_cfg dir : blind (find_cfg E dir).
Proof. unfold find_cfg. pose proof blind_load_cfg. bb. Qed.
Lemma blind_alloc c : blind (alloc c). Proof. unfold alloc. bb. Qed.
Lemma blind_load_at c : blind (load_at c). Proof. unfold load_at. bb. Qed.
Lemma blind_read : forall paths cl cfg, blind (read_all E O paths cl cfg).
Proof. pose proof blind_find_cfg. pose proof blind_alloc. pose proof blind_load_at. induction paths as [|p ps IH]; intros cl cfg; cbn [read_all]; bb. Qed.
Lemma blind_adjust files : blind (adjust_all E O files).
Proof. unfold adjust_all, adjust_one. bb. Qed.
Lemma blind_check_dbs k lockf : forall dbs, blind (check_dbs E k dbs lockf).
Proof. induction dbs as [|i dbs IH]; cbn [check_dbs]; bb. Qed.
Lemma blind_check k dbs lockf ign : blind (check_lockfile E k dbs lockf ign).
Proof. unfold check_lockfile. pose proof (blind_check_dbs k lockf). bb. Qed.
Lemma blind_check_files : forall files k exit seen, blind (check_files E O files k exit seen).
Proof.
  assert (K : forall k dbs lockf ign, blind (check_lockfile E k dbs lockf ign)) by exact blind_check.
  induction files as [|f files IH]; intros k exit seen; cbn [check_files]; bb; try apply K; try apply IH.
Qed.
Lemma blind_update_all : forall l, blind (update_all E l).
Proof. induction l as [|x l IH]; cbn [update_all]; unfold update_one; bb. Qed.
Lemma blind_write seen : blind (write_updated_configs E O seen).
Proof. unfold write_updated_configs. pose proof blind_update_all. bb. Qed.
Lemma blind_find_lockfiles path a : blind (find_lockfiles E path a).
Proof. unfold find_lockfiles. destruct (e_stat E path); bb. Qed.
Lemma blind_find_loop : forall l, blind (find_all_loop E O l).
Proof. pose proof blind_find_lockfiles. induction l as [|x l IH]; cbn [find_all_loop]; bb. Qed.
Notation O' := (with_offline O).

(** ** one download, used again *)
Notation answer := (w_answer (e_world E)).
Definition kept (url : string) (file : option string) : Prop :=
  exists c, cache_of file = Some c /\ exists e d b, answer (mkReq url (Some (c_etag c, c_date c))) = ZResp 304 e d b.
Definition after (file w : option string) : option string := match w with Some x => Some x | None => file end.
Lemma fetch_settles url file b d : f_result (fetch_zip url false file answer) = Ok (inr (b, d)) -> dated answer url ->
  let file' := after file (f_write (fetch_zip url false file answer)) in
  fetch_zip url true file' answer = mkF (Ok (inr (b, d))) None [] /\ (rechecked answer url -> kept url file').
Proof.
  intros R D. unfold fetch_zip in R |- *. cbn zeta in R |- *. set (cache := match file with Some content => fst (dec_cache content) | None => None end) in *.
  set (req := mkReq url _) in *. destruct (answer req) as [| |status etag date body] eqn:A; try discriminate R. destruct (status =? 304)%Z eqn:S4.
  - destruct cache as [c|] eqn:C; [|discriminate R]. cbn in R. injection R as <- <-. cbn [f_write after]. fold cache. rewrite C. split; [reflexivity|].
    intros _. exists c. split; [exact C|]. apply Z.eqb_eq in S4. subst status. eauto.
  - destruct (negb (status =? 200)%Z) eqn:S2; [discriminate R|]. apply negb_false_iff, Z.eqb_eq in S2. subst status. destruct body as [b0|]; [|discriminate R].
    cbn in R. injection R as <- <-. destruct (D _ _ _ _ A) as [N V]. cbn [f_write after].
    assert (Q : (negb (seqb etag "") || negb (seqb date ""))%bool = true).
    { destruct N as [N|N]; apply orb_true_iff; [left|right]; apply negb_true_iff; destruct (seqb_spec etag ""); destruct (seqb_spec date ""); auto; contradiction. }
    rewrite Q, cache_round. cbn [fst valid_cache c_body c_date bytes]. split; [cbn; now rewrite V|].
    intros K. eexists. cbn [cache_of]. rewrite cache_round. cbn [fst]. split; [reflexivity|]. exact (K _ _ _ _ A).
Qed.
Lemma fetch_kept url file : kept url file -> f_write (fetch_zip url false file answer) = None.
Proof.
  intros (c & C & e & d & b & A). unfold fetch_zip. cbn zeta. unfold cache_of in C. destruct file as [content|]; [|discriminate C].
  rewrite C, A. reflexivity.
Qed.
Lemma load_settles file c names db w rqs : load_db (e_world E) file c false (o_batch O) names = (Ok (inr db), w, rqs) ->
  dc_type c <> "api" -> (dc_type c = "zip" -> dated answer (dc_url c)) ->
  load_db (e_world E) (after file w) c true (o_batch O) names = (Ok (inr db), None, [])
  /\ (dc_type c = "zip" -> rechecked answer (dc_url c) -> kept (dc_url c) (after file w)) /\ (dc_type c <> "zip" -> w = None).
Proof.
  intros L N D. unfold load_db in L |- *. destruct (seqb_spec (dc_type c) "zip") as [T|T].
  - specialize (D T). unfold zip_load in L |- *. destruct (f_result (fetch_zip (dc_url c) false file answer)) as [[e|[b d]]|] eqn:F; cbn [rbind] in L; try discriminate L.
    destruct (fetch_settles _ _ _ _ F D) as [F1 F2]. cbn zeta in F1, F2, L |- *. set (f := fetch_zip (dc_url c) false file answer) in *. clearbody f. injection L as L W _. subst w. rewrite F1. cbn [f_result f_write f_reqs rbind].
    destruct (w_unzip (e_world E) b) as [entries|]; [|discriminate L]. cbn [rbind] in L |- *. rewrite L. split; [reflexivity|]. split; [auto|contradiction].
  - destruct (seqb_spec (dc_type c) "api") as [A|A]; [contradiction|]. destruct (seqb (dc_type c) "dir"); injection L as L W _; subst w; [|discriminate L].
    rewrite L. split; [reflexivity|]. split; [contradiction|auto].
Qed.
Lemma load_kept file c names : dc_type c = "zip" -> kept (dc_url c) file -> snd (fst (load_db (e_world E) file c false (o_batch O) names)) = None.
Proof. intros T K. unfold load_db. rewrite T. cbn. now apply fetch_kept. Qed.
Lemma load_writes file c off names r w rqs : load_db (e_world E) file c off (o_batch O) names = (r, Some w, rqs) -> dc_type c = "zip".
Proof.
  unfold load_db. destruct (seqb_spec (dc_type c) "zip") as [T|T]; [auto|]. destruct (seqb (dc_type c) "api"); [discriminate|]. destruct (seqb (dc_type c) "dir"); discriminate.
Qed.

(** ** the loop over databases *)
Hypothesis Hinj : forall u v, e_cache_path E u = e_cache_path E v -> u = v.
Hypothesis Honline : o_offline O = false.
Lemma requests_only rqs : forall s, exists s1, each (fun q => emit (EZip q)) rqs s = (Ok tt, s1) /\ s_cache s1 = s_cache s
  /\ forall c1 c2 s', twin c1 c2 s s' -> twin c1 c2 s1 s'.
Proof.
  induction rqs as [|q rqs IH]; intros s; cbn [each]; [exists s; cbn; auto|].
  destruct (IH (snd (emit (EZip q) s))) as (s1 & H & C & T). exists s1. split; [exact H|]. split; [exact C|].
  intros c1 c2 s' W. apply T. destruct W. constructor; cbn; auto. now rewrite without_app, app_nil_r.
Qed.
Definition asked (rqs : list zreq) (s : St) : St := snd (each (fun q => emit (EZip q)) rqs s).
Lemma asked_cache rqs s : s_cache (asked rqs s) = s_cache s.
Proof. unfold asked. destruct (requests_only rqs s) as (s1 & -> & C & _). exact C. Qed.
Lemma asked_twin rqs c1 c2 s s' : twin c1 c2 s s' -> twin c1 c2 (asked rqs s) s'.
Proof. unfold asked. destruct (requests_only rqs s) as (s1 & -> & _ & T). apply T. Qed.
Definition begun (c : DBConfig) (s : St) : St := snd (emit (ELoad c) (snd (print_text O ("  " +s+ dc_name c) s))).
Definition put (c : DBConfig) (w : option string) (cache : ZipDB.files) : ZipDB.files :=
  match w with Some content => file_set cache (e_cache_path E (dc_url c)) (Some content) | None => cache end.
Definition goes_on (OO : Opts) (c : DBConfig) (configs : list DBConfig) (names : list string) (x : load_err + DB) : M (list DB * bool) :=
  match x with
  | inl e => bind (emit (ELoadFailed c e)) (fun _ => bind (print_load_err E e) (fun _ => bind (load_loop E OO configs names) (fun y => ret (fst y, true))))
  | inr db => bind (print_text OO (db_desc E db +s+ newline)) (fun _ => bind (load_loop E OO configs names) (fun y => ret (db :: fst y, snd y)))
  end.
Lemma loop_cons OO c configs names s : o_json OO = o_json O -> load_loop E OO (c :: configs) names s =
  let '(r, w, rqs) := load_db (e_world E) (s_cache s (e_cache_path E (dc_url c))) c (o_offline OO) (o_batch OO) names in
  let s2 := snd (set_cache (put c w (s_cache s)) (asked rqs (begun c s))) in
  match r with Panic => (Panic, s2) | Ok x => goes_on OO c configs names x s2 end.
Proof.
  intros J. cbn [load_loop]. unfold bind at 1 2 3. unfold print_text at 1. rewrite J. unfold emit at 1 2. unfold get. cbn [s_trace s_errored s_results s_heap s_dbs s_files s_cache].
  destruct (load_db _ _ c _ _ names) as [[r w] rqs]. unfold bind at 1. fold (begun c s).
  match goal with |- context [each _ rqs ?st] => change st with (begun c s) end.
  unfold asked. destruct (requests_only rqs (begun c s)) as (s1 & -> & C & _). unfold bind at 1, set_cache at 1. unfold bind at 1, lift. destruct r as [[e|db]|]; reflexivity.
Qed.
Lemma loop_cache names : forall configs s r s1, load_loop E O configs names s = (r, s1) ->
  forall u, ~ In u (archive_urls configs) \/ kept u (s_cache s (e_cache_path E u)) -> s_cache s1 (e_cache_path E u) = s_cache s (e_cache_path E u).
Proof.
  induction configs as [|c configs IH]; intros s r s1 L u H; [injection L as _ <-; reflexivity|]. rewrite loop_cons in L by reflexivity.
  destruct (load_db (e_world E) (s_cache s (e_cache_path E (dc_url c))) c (o_offline O) (o_batch O) names) as [[x w] rqs] eqn:D. rewrite Honline in D.
  cbv zeta in L. set (s2 := snd (set_cache _ _)) in L.
  assert (Q : s_cache s2 (e_cache_path E u) = s_cache s (e_cache_path E u)).
  { unfold s2. cbn. unfold put. destruct w as [content|]; [|reflexivity]. pose proof (load_writes _ _ _ _ _ _ _ D) as T. unfold file_set.
    destruct (seqb_spec (e_cache_path E u) (e_cache_path E (dc_url c))) as [P|P]; [|reflexivity]. apply Hinj in P. destruct H as [H|H].
    - destruct H. unfold archive_urls. cbn [flat_map]. rewrite T. cbn. now left.
    - rewrite P in H. pose proof (load_kept _ c names T H) as N. rewrite D in N. discriminate N. }
  assert (H' : ~ In u (archive_urls configs) \/ kept u (s_cache s2 (e_cache_path E u))).
  { rewrite Q. destruct H as [H|H]; [left|right; exact H]. intros I. apply H. unfold archive_urls. cbn [flat_map]. apply in_or_app. now right. }
  rewrite <- Q. clearbody s2. destruct x as [[e|db]|]; [| |injection L as _ <-; reflexivity].
  - unfold goes_on, print_load_err, print_error, bind, set_errored, emit in L. cbn [s_trace s_errored s_results s_heap s_dbs s_files s_cache] in L.
    match type of L with context [load_loop E O configs names ?st] => destruct (load_loop E O configs names st) as [[y|] s3] eqn:LL; pose proof (IH _ _ _ LL u H') as F end;
      cbn [s_cache] in F; injection L as _ <-; congruence.
  - unfold goes_on, print_text, bind, emit in L.
    match type of L with context [load_loop E O configs names ?st] => destruct (load_loop E O configs names st) as [[y|] s3] eqn:LL; pose proof (IH _ _ _ LL u H') as F end;
      cbn [s_cache] in F; injection L as _ <-; congruence.
Qed.
Lemma blind_ok {A} (m : M A) c1 c2 s s' a s1 : blind m -> twin c1 c2 s s' -> m s = (Ok a, s1) -> exists s1', m s' = (Ok a, s1') /\ twin c1 c2 s1 s1'.
Proof. intros B T H. destruct (B _ _ _ _ T) as [Q1 Q2]. rewrite H in Q1, Q2. destruct (m s') as [r t]. cbn in *. subst r. eauto. Qed.
Lemma loop_twin names : forall configs s x s1, load_loop E O configs names s = (Ok x, s1) -> snd x = false ->
  (forall c, In c configs -> dc_type c <> "api") -> (forall u, In u (archive_urls configs) -> dated answer u) ->
  (forall u, twice u (archive_urls configs) -> rechecked answer u) ->
  forall s', twin (s_cache s) (s_cache s1) s s' -> exists s1', load_loop E O' configs names s' = (Ok x, s1') /\ twin (s_cache s1) (s_cache s1) s1 s1'.
Proof.
  induction configs as [|c configs IH]; intros s x s1 L F NA D RC s' T.
  { injection L as <- <-. exists s'. auto. }
  rewrite loop_cons in L |- * by reflexivity.
  destruct (load_db (e_world E) (s_cache s (e_cache_path E (dc_url c))) c (o_offline O) (o_batch O) names) as [[r w] rqs] eqn:LD. rewrite Honline in LD.
  cbv zeta in L. set (s2 := snd (set_cache _ _)) in L. destruct r as [[e|db]|]; [| |discriminate L].
  { exfalso. unfold goes_on in L. step L a s3 Hm. step L a2 s4 Hm2. step L a3 s5 Hm3. injection L as <- <-. discriminate F. }
  unfold goes_on in L. step L a s3 Hm. step L y s4 LL. injection L as <- <-. cbn [snd] in F.
  assert (Z0 : dc_type c = "zip" -> In (dc_url c) (archive_urls (c :: configs))).
  { intros Z. unfold archive_urls. cbn [flat_map]. rewrite Z. now left. }
  destruct (load_settles _ _ _ _ _ _ LD) as (L1 & L2 & L3); [apply NA; now left|intros Z; apply D; auto|].
  assert (C2 : s_cache s2 (e_cache_path E (dc_url c)) = after (s_cache s (e_cache_path E (dc_url c))) w).
  { unfold s2. cbn. unfold put, after. destruct w; [|reflexivity]. unfold file_set. now rewrite seqb_refl. }
  assert (C3 : s_cache s3 = s_cache s2) by (injection Hm as _ <-; reflexivity).
  assert (FC : load_db (e_world E) (s_cache s4 (e_cache_path E (dc_url c))) c true (o_batch O) names = (Ok (inr db), None, [])).
  { destruct (string_dec (dc_type c) "zip") as [Z|Z].
    - rewrite (loop_cache _ _ _ _ _ LL), C3, C2; [exact L1|]. rewrite C3, C2. destruct (in_dec string_dec (dc_url c) (archive_urls configs)) as [I|I]; [right|now left].
      apply L2; [exact Z|]. apply RC. apply in_split in I as (p & q & I). exists [], p, q. unfold archive_urls in I |- *. cbn [flat_map]. rewrite Z, I. reflexivity.
    - rewrite <- L1. unfold load_db. destruct (seqb_spec (dc_type c) "zip"); [contradiction|reflexivity]. }
  assert (T2 : twin (s_cache s2) (s_cache s4) s2 (begun c s')).
  { assert (B : twin (s_cache s) (s_cache s4) (begun c s) (begun c s')).
    { unfold begun. apply blind_emit; [reflexivity|]. now apply blind_emit. }
    apply (asked_twin rqs) in B. destruct B. constructor; auto. }
  rewrite (tw_c2 _ _ _ _ T). cbn [o_offline with_offline o_batch]. rewrite FC. cbv zeta.
  set (s2' := snd (set_cache _ _)).
  assert (T2' : twin (s_cache s2) (s_cache s4) s2 s2').
  { destruct T2. constructor; auto. }
  destruct (blind_ok (print_text O (db_desc E db +s+ newline)) _ _ _ _ _ _ ltac:(bb) T2' Hm) as (s3' & Hm' & T3).
  destruct (IH _ _ _ LL F) with (s' := s3') as (s4' & LL' & T4).
  - intros c0 I. apply NA. now right.
  - intros u I. apply D. unfold archive_urls. cbn [flat_map]. apply in_or_app. now right.
  - intros u (p & q & r & I). apply RC. unfold twice, archive_urls in I |- *. cbn [flat_map]. rewrite I. destruct (seqb (dc_type c) "zip"); [exists (dc_url c :: p), q, r|exists p, q, r]; reflexivity.
  - rewrite C3. exact T3.
  - exists s4'. split; [|exact T4]. unfold goes_on. unfold bind at 1. change (print_text O' (db_desc E db +s+ newline) s2') with (print_text O (db_desc E db +s+ newline) s2'). rewrite Hm'.
    unfold bind at 1. rewrite LL'. reflexivity.
Qed.

(** ** everything else *)
Definition ext (s s' : St) : Prop := exists n, s_trace s' = s_trace s ++ n.
Lemma ext_refl s : ext s s. Proof. exists []. now rewrite app_nil_r. Qed.
Lemma ext_trans a b c : ext a b -> ext b c -> ext a c.
Proof. intros [n H] [m K]. exists (n ++ m). now rewrite K, H, app_assoc. Qed.
Lemma ext_same {A} (m : M A) : (forall s, s_trace (snd (m s)) = s_trace s) -> keeps ext m.
Proof. intros H s. exists []. now rewrite H, app_nil_r. Qed.
Lemma ext_emit e : keeps ext (emit e). Proof. intros s. now exists [e]. Qed.
Ltac ee := repeat (cbv zeta; match goal with
  | |- keeps _ (bind _ _) => apply (keeps_bind _ ext_trans); [|intros ?]
  | |- keeps _ (ret _) => apply keeps_ret, ext_refl
  | |- keeps _ (lift _) => apply keeps_lift, ext_refl
  | |- keeps _ (get _) => apply keeps_get, ext_refl
  | |- keeps _ (print_text _ _) => unfold print_text
  | |- keeps _ (print_error _) => unfold print_error
  | |- keeps _ (print_result _ _ _) => unfold print_result
  | |- keeps _ (emit _) => apply ext_emit
  | |- keeps _ (set_heap _) => now apply ext_same
  | |- keeps _ (set_dbs _) => now apply ext_same
  | |- keeps _ (set_files _) => now apply ext_same
  | |- keeps _ set_errored => now apply ext_same
  | |- keeps _ (add_result _) => now apply ext_same
  | |- keeps _ (each _ _) => apply (keeps_each _ ext_refl ext_trans); intros ? ?
  | H : forall _, keeps _ _ |- _ => solve [apply H]
  | H : forall _ _, keeps _ _ |- _ => solve [apply H]
  | H : forall _ _ _, keeps _ _ |- _ => solve [apply H]
  | H : keeps _ _ |- _ => exact H
  | |- keeps _ (if ?b then _ else _) => destruct b
  | |- keeps _ (let '(_, _) := ?b in _) => destruct b
  | |- keeps _ (match ?b with _ => _ end) => destruct b
  end).
Lemma ext_check k lockf ign dbs : keeps ext (check_lockfile E k dbs lockf ign).
Proof. assert (H : forall dbs, keeps ext (check_dbs E k dbs lockf)) by (induction dbs0 as [|i l IH]; cbn [check_dbs]; ee). unfold check_lockfile. ee. Qed.
Lemma ext_check_files : forall files k exit seen, keeps ext (check_files E O files k exit seen).
Proof.
  assert (K : forall k dbs lockf ign, keeps ext (check_lockfile E k dbs lockf ign)) by (intros; apply ext_check).
  induction files as [|f files IH]; intros k exit seen; cbn [check_files]; ee; try apply K; apply IH.
Qed.
Lemma ext_write seen : keeps ext (write_updated_configs E O seen).
Proof. assert (H : forall l, keeps ext (update_all E l)) by (induction l as [|x l IH]; cbn [update_all]; unfold update_one; ee). unfold write_updated_configs. ee. Qed.

Lemma ext_load configs names : keeps ext (load_databases E O configs names).
Proof.
  assert (SC : forall c, keeps ext (set_cache c)) by (intros; now apply ext_same).
  assert (H : forall configs, keeps ext (load_loop E O configs names)) by (induction configs0 as [|c l IH]; cbn [load_loop]; unfold print_load_err; ee).
  unfold load_databases. ee.
Qed.

(** the conditions, on what a run did *)
Definition fine (tr : list ev) : Prop :=
  failures tr = [] /\ (forall c, In c (loads tr) -> dc_type c <> "api") /\ (forall u, In u (archive_urls (loads tr)) -> dated answer u)
  /\ (forall u, twice u (archive_urls (loads tr)) -> rechecked answer u).
Lemma twice_mid {A} (x : A) a b c : twice x b -> twice x (a ++ b ++ c).
Proof. intros (p & q & r & ->). exists (a ++ p), q, (r ++ c). rewrite <- !app_assoc. cbn [app]. rewrite <- !app_assoc. reflexivity. Qed.
Lemma fine_part a b c : fine (a ++ b ++ c) -> fine b.
Proof.
  intros (F & A & D & R). rewrite !failures_app in F. rewrite !loads_app in A, D, R. unfold archive_urls in D, R. rewrite !flat_map_app in D, R. split; [|split; [|split]].
  - apply app_eq_nil in F as [_ F]. now apply app_eq_nil in F as [F _].
  - intros x I. apply A, in_or_app. right. apply in_or_app. now left.
  - intros u I. apply D. apply in_or_app. right. apply in_or_app. now left.
  - intros u H. apply R. now apply twice_mid.
Qed.
Lemma databases_twin configs names s x s1 : load_databases E O configs names s = (Ok x, s1) -> (exists n, s_trace s1 = s_trace s ++ n /\ fine n) ->
  forall s', twin (s_cache s) (s_cache s1) s s' -> exists s1', load_databases E O' configs names s' = (Ok x, s1') /\ twin (s_cache s1) (s_cache s1) s1 s1'.
Proof.
  intros L (n & G & F) s' T. unfold load_databases in L |- *. change (o_list_pkgs O') with (o_list_pkgs O). destruct (o_list_pkgs O); [injection L as <- <-; exists s'; auto|].
  step L u s2 P1. step L y s3 LL. step L u2 s4 P2. injection L as <- <-.
  assert (C2 : s_cache s2 = s_cache s) by (injection P1 as _ <-; reflexivity). assert (C4 : s_cache s4 = s_cache s3) by (injection P2 as _ <-; reflexivity). rewrite C4 in *.
  destruct (blind_ok (print_text O ("Loaded the following OSV databases:" +s+ newline)) _ _ _ _ _ _ ltac:(bb) T P1) as (s2' & P1' & T2).
  assert (E2 : s_trace s2 = s_trace s ++ [EOut KText (if o_json O then Stderr else Stdout) ("Loaded the following OSV databases:" +s+ newline)]) by (injection P1 as _ <-; reflexivity).
  assert (E4 : s_trace s4 = s_trace s3 ++ [EOut KText (if o_json O then Stderr else Stdout) newline]) by (injection P2 as _ <-; reflexivity).
  destruct y as [ds b]. destruct (load_loop_spec E O (s_cache s2) names configs s2 ds b s3) as (new & TR & _ & _ & LD & _ & B & _); [constructor|exact LL|].
  assert (N : n = [EOut KText (if o_json O then Stderr else Stdout) ("Loaded the following OSV databases:" +s+ newline)] ++ new ++ [EOut KText (if o_json O then Stderr else Stdout) newline]).
  { rewrite E4, TR, E2 in G. rewrite <- !app_assoc in G. now apply app_inv_head in G. }
  rewrite N in F. apply fine_part in F as (F1 & F2 & F3 & F4). rewrite LD in F2, F3, F4. rewrite F1 in B. cbn in B.
  destruct (loop_twin names configs s2 (ds, b) s3 LL B F2 F3 F4 s2') as (s3' & LL' & T3); [rewrite C2; exact T2|].
  destruct (blind_ok (print_text O newline) _ _ _ _ _ _ ltac:(bb) T3 P2) as (s4' & P2' & T4).
  exists s4'. split; [|exact T4]. unfold bind at 1. change (print_text O' ("Loaded the following OSV databases:" +s+ newline) s') with (print_text O ("Loaded the following OSV databases:" +s+ newline) s'). rewrite P1'.
  unfold bind at 1. rewrite LL'. unfold bind at 1. change (print_text O' newline s3') with (print_text O newline s3'). rewrite P2'. reflexivity.
Qed.
Lemma blind_cache {A} (m : M A) s r s1 : blind m -> m s = (r, s1) -> s_cache s1 = s_cache s.
Proof.
  intros B H. destruct (B (s_cache s) (s_cache s) s (mkSt (without_requests (s_trace s)) (s_errored s) (s_results s) (s_heap s) (s_dbs s) (s_files s) (s_cache s))) as [_ T]; [now constructor|].
  rewrite H in T. exact (tw_c1 _ _ _ _ T).
Qed.
Lemma read_same paths cl cfg : read_all E O' paths cl cfg = read_all E O paths cl cfg. Proof. reflexivity. Qed.
Lemma adjust_same files : adjust_all E O' files = adjust_all E O files. Proof. reflexivity. Qed.
Lemma check_same files k e seen : check_files E O' files k e seen = check_files E O files k e seen. Proof. reflexivity. Qed.
Lemma write_same seen : write_updated_configs E O' seen = write_updated_configs E O seen. Proof. reflexivity. Qed.
Definition rest_of (files : list LFile) (x : list DB * bool) : M Z :=
  bind (set_dbs (fst x)) (fun _ => bind (check_files E O files 0 (if snd x : bool then 127%Z else 0%Z) []) (fun y =>
  bind (if o_update O then write_updated_configs E O (snd y) else ret tt) (fun _ => bind (get s_errored) (fun errored =>
  ret (if errored && Z.eqb (fst y) 0 then 127%Z else fst y))))).
Lemma rest_blind files x : blind (rest_of files x).
Proof. unfold rest_of. pose proof (blind_check_files files 0 (if snd x then 127%Z else 0%Z) []) as H. pose proof (blind_write) as K. bb. Qed.
Lemma rest_ext files x : keeps ext (rest_of files x).
Proof. unfold rest_of. pose proof (ext_check_files files 0 (if snd x then 127%Z else 0%Z) []) as H. pose proof ext_write as K. ee. Qed.
Lemma files_twin paths cl cfg s code s1 : run_files E O paths cl cfg s = (Ok code, s1) -> fine (s_trace s1) ->
  forall s', twin (s_cache s) (s_cache s1) s s' -> exists s1', run_files E O' paths cl cfg s' = (Ok code, s1') /\ twin (s_cache s1) (s_cache s1) s1 s1'.
Proof.
  intros R F s' T. unfold run_files in R |- *. step R fl t1 RA. step R u t2 AD. step R h t3 GH. step R x t4 LD. fold (rest_of fl x) in R.
  change (rest_of fl x t4 = (Ok code, s1)) in R.
  pose proof (blind_cache _ _ _ _ (rest_blind fl x) R) as C4.
  pose proof (blind_cache _ _ _ _ (blind_read paths cl cfg) RA) as C1. pose proof (blind_cache _ _ _ _ (blind_adjust fl) AD) as C2. injection GH as <- <-.
  destruct (blind_ok _ _ _ _ _ _ _ (blind_read paths cl cfg) T RA) as (t1' & RA' & T1). destruct (blind_ok _ _ _ _ _ _ _ (blind_adjust fl) T1 AD) as (t2' & AD' & T2).
  pose proof (keeps_at _ _ _ _ _ (ext_load _ _) LD) as [n N]. pose proof (keeps_at _ _ _ _ _ (rest_ext fl x) R) as [n' N'].
  destruct (databases_twin _ _ _ _ _ LD) with (s' := t2') as (t4' & LD' & T4).
  { exists n. split; [exact N|]. rewrite N', N, <- app_assoc in F. exact (fine_part _ _ _ F). }
  { rewrite <- C4, C2, C1. exact T2. }
  destruct (blind_ok _ _ _ _ _ _ _ (rest_blind fl x) T4 R) as (s1' & R' & T5).
  exists s1'. rewrite C4. split; [|exact T5].
  unfold bind at 1. rewrite read_same, RA'. unfold bind at 1. rewrite adjust_same, AD'. unfold bind at 1. unfold get at 1. rewrite (tw_heap _ _ _ _ T2). unfold bind at 1. rewrite LD'. exact R'.
Qed.
Lemma alloc_twin c paths cl s code s1 : bind (alloc c) (fun i => run_files E O paths cl i) s = (Ok code, s1) -> fine (s_trace s1) ->
  forall s', twin (s_cache s) (s_cache s1) s s' -> exists s1', bind (alloc c) (fun i => run_files E O' paths cl i) s' = (Ok code, s1') /\ twin (s_cache s1) (s_cache s1) s1 s1'.
Proof.
  intros R F s' T. step R i t1 A. pose proof (blind_cache _ _ _ _ (blind_alloc c) A) as C1. destruct (blind_ok _ _ _ _ _ _ _ (blind_alloc c) T A) as (t1' & A' & T1).
  destruct (files_twin _ _ _ _ _ _ R F t1') as (s1' & R' & T2); [now rewrite C1|]. exists s1'. split; [|exact T2]. unfold bind. now rewrite A'.
Qed.
Lemma config_twin paths s code s1 : run_config E O paths s = (Ok code, s1) -> fine (s_trace s1) ->
  forall s', twin (s_cache s) (s_cache s1) s s' -> exists s1', run_config E O' paths s' = (Ok code, s1') /\ twin (s_cache s1) (s_cache s1) s1 s1'.
Proof.
  intros R F s' T. unfold run_config in R |- *. change (o_list_pkgs O') with (o_list_pkgs O). change (o_no_config O') with (o_no_config O). change (o_config O') with (o_config O).
  destruct (o_list_pkgs O); [now apply (alloc_twin _ _ _ _ _ _ R F)|]. destruct (negb (o_no_config O) && negb (seqb (o_config O) "")); [|now apply (alloc_twin _ _ _ _ _ _ R F)].
  step R x t1 L. pose proof (blind_cache _ _ _ _ (blind_load_cfg (o_config O)) L) as C1. destruct (blind_ok _ _ _ _ _ _ _ (blind_load_cfg (o_config O)) T L) as (t1' & L' & T1).
  unfold bind at 1. rewrite L'. destruct x as [e|con].
  - match type of R with ?m _ = _ => assert (B : blind m) by bb end. pose proof (blind_cache _ _ _ _ B R) as C2. destruct (blind_ok _ _ _ _ _ _ _ B T1 R) as (s1' & R' & T2).
    exists s1'. split; [exact R'|]. rewrite C2, C1 in *. exact T2.
  - apply (alloc_twin _ _ _ _ _ _ R F). now rewrite C1.
Qed.
Lemma known_same : print_known_ecosystems O' = print_known_ecosystems O.
Proof. unfold print_known_ecosystems, print_text. change (o_json O') with (o_json O). reflexivity. Qed.
Lemma known_blind : blind (print_known_ecosystems O).
Proof. unfold print_known_ecosystems. generalize known_ecosystems. intros l. bb. Qed.
Lemma body_twin s code s1 : run_body E O s = (Ok code, s1) -> fine (s_trace s1) ->
  forall s', twin (s_cache s) (s_cache s1) s s' -> exists s1', run_body E O' s' = (Ok code, s1') /\ twin (s_cache s1) (s_cache s1) s1 s1'.
Proof.
  intros R F s' T.
  assert (Q : forall m : M Z, blind m -> m s = (Ok code, s1) -> exists s1', m s' = (Ok code, s1') /\ twin (s_cache s1) (s_cache s1) s1 s1').
  { intros m B H. pose proof (blind_cache _ _ _ _ B H) as C. destruct (blind_ok _ _ _ _ _ _ _ B T H) as (s1' & H' & T'). exists s1'. split; [exact H'|]. rewrite C in *. exact T'. }
  unfold run_body in R |- *. change (o_version O') with (o_version O). change (o_list_eco O') with (o_list_eco O). change (o_parse_as O') with (o_parse_as O). change (o_args O') with (o_args O).
  destruct (o_version O); [apply Q; [bb|exact R]|]. destruct (o_list_eco O).
  { rewrite known_same. apply Q; [|exact R]. apply blind_bind; [|intros _; apply blind_ret]. apply known_blind. }
  destruct (negb (known_parse_as (o_parse_as O))).
  { apply Q; [|exact R]. bb. }
  assert (B : blind (find_all_lockfiles E O)) by (unfold find_all_lockfiles; pose proof (blind_find_loop); bb).
  step R x t1 L. pose proof (blind_cache _ _ _ _ B L) as C1. destruct (blind_ok _ _ _ _ _ _ _ B T L) as (t1' & L' & T1).
  change (find_all_lockfiles E O') with (find_all_lockfiles E O). unfold bind at 1. rewrite L'. destruct (Nat.eqb _ _).
  - match type of R with ?m _ = _ => assert (B2 : blind m) by bb end. pose proof (blind_cache _ _ _ _ B2 R) as C2. destruct (blind_ok _ _ _ _ _ _ _ B2 T1 R) as (s1' & R' & T2).
    exists s1'. split; [exact R'|]. rewrite C2, C1 in *. exact T2.
  - apply (config_twin _ _ _ _ R F). now rewrite C1.
Qed.
Theorem offline_after fs cache code s1 : run E O (start fs cache) = (Ok code, s1) -> fine (s_trace s1) ->
  exists s2, run E O' (start fs (s_cache s1)) = (Ok code, s2) /\ s_trace s2 = without_requests (s_trace s1) /\ s_cache s2 = s_cache s1 /\ s_files s2 = s_files s1.
Proof.
  intros R F. unfold run in R |- *. change (o_json O') with (o_json O). destruct (run_body E O (start fs cache)) as [r t] eqn:RB.
  assert (T0 : twin (s_cache (start fs cache)) (s_cache s1) (start fs cache) (start fs (s_cache s1))) by now constructor.
  destruct (o_json O).
  - assert (B : blind (print_json_results E)) by (unfold print_json_results; bb).
    destruct (print_json_results E t) as [x t2] eqn:PJ. injection R as -> <-.
    pose proof (blind_cache _ _ _ _ B PJ) as C. assert (FB : fine (s_trace t)).
    { assert (X : keeps ext (print_json_results E)) by (unfold print_json_results; ee). destruct (keeps_at _ _ _ _ _ X PJ) as [n N]. rewrite N in F. exact (fine_part [] (s_trace t) n F). }
    rewrite C in *. destruct (body_twin _ _ _ RB FB _ T0) as (t' & RB' & T'). rewrite RB'. destruct (B _ _ _ _ T') as [_ T2]. rewrite PJ in T2. destruct (print_json_results E t') as [x' t2'].
    cbn [snd] in T2. exists t2'. destruct T2. auto.
  - injection R as -> <-. destruct (body_twin _ _ _ RB F _ T0) as (t' & RB' & T'). rewrite RB'. exists t'. destruct T'. auto.
Qed.
End Run.
