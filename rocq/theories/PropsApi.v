(** API databases: C14-C19. *)
From Verif Require Import GoStr GoStrFacts GoSort GoSortFacts Types Json JsonRound Path PathFacts ErrGroup ErrGroupProofs MemDB Api ApiSpec ApiProofs OsvExamples.
From Verif Require JsonSpec JsonGrammar.
Local Open Scope Z_scope.

(** C14.  Lengths are below 2^62: no Go slice of packages can be longer. *)
Theorem C14_batches : forall pkgs size, 1 <= size < 2 ^ 63 -> zlen pkgs <= 2 ^ 62 ->
  exists bs, batch_pkgs pkgs size = Ok bs /\ batches_of size pkgs bs.
Proof. exact batch_pkgs_spec. Qed.
Print Assumptions C14_batches.
Theorem C14_batches_functional : forall size pkgs a b, batches_of size pkgs a -> batches_of size pkgs b -> a = b.
Proof. exact batches_fun. Qed.
Print Assumptions C14_batches_functional.
Theorem C14_constructor : forall parse_uri name ident url offline batch db,
  new_api_db parse_uri name ident url offline batch = inr db <->
  (offline = false /\ 1 <= batch /\ exists u, parse_uri url = Some u /\ db = mkAPI name ident u batch).
Proof. exact new_api_db_iff. Qed.
Print Assumptions C14_constructor.
Definition ex_url : URL := mkURL "/v1" (fun p => "https://api.osv.dev" +s+ p).
Definition ex_api : APIDB := mkAPI "osv" "api#https://api.osv.dev/v1#" ex_url 2.
Example C14_case : batch_pkgs [ex_pkg "1"; ex_pkg "2"; ex_pkg "3"; ex_pkg "4"; ex_pkg "5"] 2
  = Ok [[ex_pkg "1"; ex_pkg "2"]; [ex_pkg "3"; ex_pkg "4"]; [ex_pkg "5"]]
  /\ new_api_db (fun _ => Some ex_url) "osv" "api#https://api.osv.dev/v1#" "https://api.osv.dev/v1" false 2 = inr ex_api.
Proof. split; reflexivity. Qed.

(** C15 *)
Theorem C15_batches_in_flight : forall (post : string -> string -> http -> Prop) db batches k s,
  gsteps (List.length batches) 100 (serve_batch post db batches) k (g_init (List.length batches)) s ->
  (List.length (g_run s) <= 100)%nat.
Proof. intros post db batches k s H. exact (group_bound _ _ _ _ _ H). Qed.
Print Assumptions C15_batches_in_flight.
Theorem C15_details_in_flight : forall dec_osv (get : string -> http -> Prop) db ids k s,
  gsteps (List.length ids) 200 (serve_fetch dec_osv get db ids) k (g_init (List.length ids)) s ->
  (List.length (g_run s) <= 200)%nat.
Proof. intros dec_osv get db ids k s H. exact (group_bound _ _ _ _ _ H). Qed.
Print Assumptions C15_details_in_flight.
(** no schedule of a group of [n] tasks is longer than [4 * n] steps, and one
    that cannot be continued is complete *)
Theorem C15_schedules_terminate : forall (A E : Type) n limit (serve : nat -> E + A -> Prop) k s,
  (0 < limit)%nat -> (forall i, (i < n)%nat -> exists r, serve i r) ->
  gsteps n limit serve k (g_init n) s ->
  (k <= 4 * n)%nat /\ ((forall s', ~ gstep n limit serve s s') -> g_done n s).
Proof. exact @group_halts. Qed.
Print Assumptions C15_schedules_terminate.
(** the outcome of a group: slot [i] holds the value of task [i], and the error
    is one of a failing task *)
Theorem C15_group_outcome : forall (A E : Type) n limit (serve : nat -> E + A -> Prop) k s,
  gsteps n limit serve k (g_init n) s -> g_done n s ->
  exists outs, List.length outs = n
    /\ (forall i r, nth_error outs i = Some r -> serve i r)
    /\ g_slots s = map (fun r => match r with inr a => Some a | inl _ => None end) outs
    /\ (g_err s = None <-> forall e, ~ In (inl e) outs)
    /\ (forall e, g_err s = Some e -> In (inl e) outs)
    /\ Permutation (g_sent s) (seq 0 n).
Proof. exact @group_outcome. Qed.
Print Assumptions C15_group_outcome.
Theorem C15_schedule_independent : forall S dec_osv (post : string -> string -> http -> Prop) (get : string -> http -> Prop) db pkgs r1 p1 g1 r2 p2 g2,
  (forall u b h h', post u b h -> post u b h' -> h = h') -> (forall u h h', get u h -> get u h' -> h = h') ->
  api_check S dec_osv post get db pkgs r1 p1 g1 -> api_check S dec_osv post get db pkgs r2 p2 g2 ->
  (exists e e', r1 = Ok (inl e) /\ r2 = Ok (inl e')) \/ r1 = r2.
Proof. exact api_check_det. Qed.
Print Assumptions C15_schedule_independent.
Theorem C15_some_execution : forall S dec_osv (post : string -> string -> http -> Prop) (get : string -> http -> Prop) db pkgs,
  db_ok db pkgs -> (forall u b, exists h, post u b h) -> (forall u, exists h, get u h) ->
  exists r posts gets, api_check S dec_osv post get db pkgs (Ok r) posts gets.
Proof. exact api_check_exists. Qed.
Print Assumptions C15_some_execution.
Theorem C15_no_panic : forall S dec_osv post get db pkgs posts gets, db_ok db pkgs ->
  ~ api_check S dec_osv post get db pkgs Panic posts gets.
Proof. exact api_check_no_panic. Qed.
Print Assumptions C15_no_panic.

(** C16 *)
Theorem C16_successful_check : forall S dec_osv post get db pkgs result posts gets,
  SorterOk S -> db_ok db pkgs ->
  api_check S dec_osv post get db pkgs (Ok (inr result)) posts gets ->
  checked dec_osv post get db pkgs result posts gets.
Proof. intros S dec_osv post get db pkgs result posts gets HS. exact (api_check_ok S HS dec_osv post get db pkgs result posts gets). Qed.
Print Assumptions C16_successful_check.
(** the IDs read from an answer of the documented shape are those in it *)
Theorem C16_answers_decoded : forall js idss, good (batch_json js) = true -> JsonSpec.within 10000 (batch_json js) ->
  Forall2 result_json js idss -> dec_batch (print (batch_json js)) = Some idss.
Proof. intros js idss G D. apply dec_batch_shape; [exact G|]. now apply JsonGrammar.depth_iff. Qed.
Print Assumptions C16_answers_decoded.
(** where requests go, for base paths and IDs of ordinary path elements *)
Theorem C16_endpoints : forall name ident render batch base id, Forall elem base -> elem id ->
  bulk_endpoint (mkAPI name ident (mkURL (abs_path base) render) batch) = render (abs_path (base ++ ["querybatch"]))
  /\ osv_endpoint (mkAPI name ident (mkURL (abs_path base) render) batch) id = render (abs_path (base ++ ["vulns"; id])).
Proof. exact endpoints_spec. Qed.
Print Assumptions C16_endpoints.

(** a server with two advisories for the first package, none for the second and
    one of them again for the third; one detail request fails *)
Definition ex_body1 : string := "{""results"":[{""vulns"":[{""id"":""GHSA-1"",""modified"":""x""},{""id"":""OSV-2""}]},{}]}".
Definition ex_body2 : string := "{""results"":[{""vulns"":[{""id"":""GHSA-1""}]}]}".
Definition ex_dec (b : string) : OSV * bool := (if seqb b "doc" then ex_osv else no_osv, false).
Definition ex_post (u b : string) (h : http) : Prop :=
  h = HResp 200 (Some (if seqb b (payload [ex_pkg "1"; ex_pkg "2"]) then ex_body1 else ex_body2)).
Definition ex_get (u : string) (h : http) : Prop :=
  h = if seqb u "https://api.osv.dev/v1/vulns/GHSA-1" then HResp 200 (Some "doc") else HResp 500 (Some "").
Example C16_case : exists posts gets,
  api_check isort ex_dec ex_post ex_get ex_api [ex_pkg "1"; ex_pkg "2"; ex_pkg "3"]
    (Ok (inr [[ex_osv; id_only "OSV-2"]; []; [ex_osv]])) posts gets
  /\ db_ok ex_api [ex_pkg "1"; ex_pkg "2"; ex_pkg "3"].
Proof.
  pose (pkgs := [ex_pkg "1"; ex_pkg "2"; ex_pkg "3"]).
  assert (K : db_ok ex_api pkgs) by (split; vm_compute; intuition discriminate).
  destruct (C15_some_execution isort ex_dec ex_post ex_get ex_api pkgs K) as (r & posts & gets & H).
  { intros u b. eexists. reflexivity. } { intros u. eexists. reflexivity. }
  exists posts, gets. split; [|exact K]. enough (E : r = inr [[ex_osv; id_only "OSV-2"]; []; [ex_osv]]) by (rewrite <- E; exact H).
  destruct r as [e|res].
  - exfalso. destruct (api_check_err _ _ _ _ _ _ _ _ _ K H) as (_ & bs & b & h & B & Hin & Hp & Hb).
    assert (E : bs = [[ex_pkg "1"; ex_pkg "2"]; [ex_pkg "3"]]).
    { apply (batches_fun 2 pkgs); [exact B|]. destruct (batch_pkgs_spec pkgs 2) as (bs' & E' & B'); [lia|vm_compute; discriminate|].
      vm_compute in E'. injection E' as <-. exact B'. }
    subst bs. apply batch_reply_err in Hb. cbv [ex_post] in Hp. subst h.
    destruct Hin as [<-|[<-|[]]]; vm_compute in Hb; discriminate.
  - f_equal. destruct (api_check_ok _ isort_ok _ _ _ _ _ _ _ _ K H) as (bs & ans & fetched & B & _ & F & ND & IN & _ & G & _ & R).
    assert (E : bs = [[ex_pkg "1"; ex_pkg "2"]; [ex_pkg "3"]]).
    { apply (batches_fun 2 pkgs); [exact B|]. destruct (batch_pkgs_spec pkgs 2) as (bs' & E' & B'); [lia|vm_compute; discriminate|].
      vm_compute in E'. injection E' as <-. exact B'. }
    subst bs.
    assert (Ea : ans = [[["GHSA-1"; "OSV-2"]; []]; [["GHSA-1"]]]).
    { inversion F as [|? a1 ? ? (h1 & P1 & G1) F']; subst. inversion F' as [|? a2 ? ? (h2 & P2 & G2) F'']; subst. inversion F''; subst.
      apply batch_reply_ok in G1, G2. cbv [ex_post] in P1, P2. subst h1 h2. vm_compute in G1, G2. congruence. }
    subst ans. cbn [List.concat app] in *.
    assert (Ef : forall q d, In (q, d) fetched -> d = if seqb q "GHSA-1" then ex_osv else no_osv).
    { intros q d Hq. destruct (G q d Hq) as (h & Hg & Hr).
      assert (Hq' : q = "GHSA-1" \/ q = "OSV-2").
      { destruct (proj1 (IN q) (in_map fst _ _ Hq)) as (ids & Hi & Hj). cbn in Hi. destruct Hi as [<-|[<-|[<-|[]]]]; cbn in Hj; intuition. }
      pose proof (fetch_received ex_dec h) as Hr'. rewrite (received_fun ex_dec _ _ _ Hr Hr'). cbv [ex_get] in Hg. subst h.
      destruct Hq' as [-> | ->]; reflexivity. }
    assert (E1 : forall v, o_id v = "GHSA-1" /\ ((exists q, In (q, v) fetched) \/ (v = id_only "GHSA-1" /\ forall q d, In (q, d) fetched -> o_id d <> "GHSA-1")) -> v = ex_osv).
    { intros v (Hid & [[q Hq]|[_ Hn]]).
      - rewrite (Ef q v Hq) in *. destruct (seqb q "GHSA-1"); [reflexivity|discriminate].
      - exfalso. assert (Hin : In "GHSA-1" (map fst fetched)) by (apply IN; exists ["GHSA-1"]; cbn; auto).
        apply in_map_iff in Hin. destruct Hin as ([q d] & E & Hin). cbn in E. subst q. apply (Hn _ _ Hin). rewrite (Ef _ _ Hin). reflexivity. }
    assert (E2 : forall v, o_id v = "OSV-2" /\ ((exists q, In (q, v) fetched) \/ (v = id_only "OSV-2" /\ forall q d, In (q, d) fetched -> o_id d <> "OSV-2")) -> v = id_only "OSV-2").
    { intros v (Hid & [[q Hq]|[Hv _]]); [|exact Hv]. rewrite (Ef q v Hq) in *. destruct (seqb q "GHSA-1"); discriminate. }
    inversion R as [|? l1 ? ? R1 R']; subst. inversion R' as [|? l2 ? ? R2 R'']; subst. inversion R'' as [|? l3 ? ? R3 R''']; subst. inversion R'''; subst.
    inversion R1 as [|? v1 ? ? V1 R1']; subst. inversion R1' as [|? v2 ? ? V2 R1'']; subst. inversion R1''; subst. inversion R2; subst.
    inversion R3 as [|? v3 ? ? V3 R3']; subst. inversion R3'; subst.
    apply E1 in V1, V3. apply E2 in V2. congruence.
Qed.

(** C17.  Names that are not UTF-8 are sent with replacement characters. *)
Theorem C17_payload : forall pkgs, Forall utf8_pkg pkgs ->
  exists qs, JsonSpec.json_text (payload pkgs) (JObj [("queries", JArr qs)]) /\ Forall2 query_for pkgs qs.
Proof. intros pkgs U. destruct (payload_spec pkgs U) as (qs & P & F). apply JsonGrammar.text_iff in P. eauto. Qed.
Print Assumptions C17_payload.
Theorem C17_query_functional : forall p a b, query_for p a -> query_for p b -> a = b.
Proof. exact query_fun. Qed.
Print Assumptions C17_query_functional.
Example C17_case : payload [ex_pkg "1"; mkPkg "a" "" "c0ffee" "npm" "npm"; mkPkg "a" "" "" "npm" "npm"]
  = "{""queries"":[{""version"":""1"",""package"":{""name"":""lib"",""ecosystem"":""npm""}},{""commit"":""c0ffee"",""package"":{""name"":"""",""ecosystem"":""""}},{""package"":{""name"":"""",""ecosystem"":""""}}]}"
  /\ utf8_pkg (ex_pkg "1").
Proof. vm_compute. auto. Qed.

(** C18 *)
Theorem C18_errors_are_reported : forall S dec_osv post get db pkgs r posts gets, SorterOk S -> db_ok db pkgs ->
  api_check S dec_osv post get db pkgs (Ok r) posts gets ->
  (exists batches b, batches_of (api_batch db) pkgs batches /\ In b batches
     /\ forall h, post (bulk_endpoint db) (payload b) h -> exists e, bad_answer b h e) ->
  exists e, r = inl e.
Proof. intros S dec_osv post get db pkgs r posts gets HS. exact (api_check_complete S HS dec_osv post get db pkgs r posts gets). Qed.
Print Assumptions C18_errors_are_reported.
Theorem C18_error_is_of_a_batch : forall S dec_osv post get db pkgs e posts gets, db_ok db pkgs ->
  api_check S dec_osv post get db pkgs (Ok (inl e)) posts gets ->
  gets = [] /\ exists batches b h, batches_of (api_batch db) pkgs batches /\ In b batches
    /\ post (bulk_endpoint db) (payload b) h /\ bad_answer b h e.
Proof. exact api_check_err. Qed.
Print Assumptions C18_error_is_of_a_batch.
Theorem C18_answers_good_or_bad : forall b h, (exists idss, good_answer b h idss) <-> ~ exists e, bad_answer b h e.
Proof. exact good_or_bad. Qed.
Print Assumptions C18_answers_good_or_bad.
Example C18_case : exists e posts gets,
  api_check isort ex_dec (fun _ _ h => h = HResp 200 (Some ex_body1)) ex_get ex_api [ex_pkg "1"; ex_pkg "2"; ex_pkg "3"] (Ok (inl e)) posts gets.
Proof.
  pose (pkgs := [ex_pkg "1"; ex_pkg "2"; ex_pkg "3"]).
  assert (K : db_ok ex_api pkgs) by (split; vm_compute; intuition discriminate).
  destruct (C15_some_execution isort ex_dec (fun _ _ h => h = HResp 200 (Some ex_body1)) ex_get ex_api pkgs K) as (r & posts & gets & H).
  { intros u b. eexists. reflexivity. } { intros u. eexists. reflexivity. }
  destruct (C18_errors_are_reported _ _ _ _ _ _ _ _ _ isort_ok K H) as (e & ->); [|eauto].
  destruct (batch_pkgs_spec pkgs 2) as (bs' & E' & B'); [lia|vm_compute; discriminate|].
  vm_compute in E'. injection E' as <-. eexists _, [ex_pkg "3"]. split; [exact B'|]. split; [right; now left|].
  intros h ->. eexists. apply batch_reply_err. vm_compute. reflexivity.
Qed.

(** C19 *)
Theorem C19_fetched_once : forall S dec_osv post get db pkgs result posts gets,
  SorterOk S -> db_ok db pkgs ->
  api_check S dec_osv post get db pkgs (Ok (inr result)) posts gets ->
  exists ids, NoDup ids /\ Permutation gets (map (osv_endpoint db) ids)
    /\ (forall id, In id ids <-> exists vs v, In vs result /\ In v vs /\ o_id v = id).
Proof. exact fetched_once. Qed.
Print Assumptions C19_fetched_once.
