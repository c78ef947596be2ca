(** C92: --batch-size does not change what is found. *)
From Verif Require Import GoStr GoStrFacts GoSort GoSortFacts Types Json JsonRound Osv MemDB Path Api ApiSpec ApiProofs ApiExec ZipDB DirDB DbConfig Configer GoMap Lockfile Csv Report Main MainSpec SemNum OsvExamples ConfigExamples MainExamples ApiRunSpec ApiRunProofs PropsApiRun BatchSpec BatchProofs.
Local Open Scope Z_scope.

(** Two checks of the same packages by the same server, with batches of different
    sizes: when the server answers for each package as if it were alone, they end
    alike, with the IDs the server lists, having asked for the same details. *)
Theorem C92_check : forall S dec_osv (post : string -> string -> http -> Prop) (get : string -> http -> Prop) answer a b pkgs r p g r' p' g', (forall u h h', get u h -> get u h' -> h = h') ->
  one_by_one post (bulk_endpoint a) answer -> same_server a b -> db_ok a pkgs -> db_ok b pkgs ->
  api_check S dec_osv post get a pkgs r p g -> api_check S dec_osv post get b pkgs r' p' g' ->
  r = r' /\ Permutation g g' /\ exists found, r = Ok (inr found) /\ map (map o_id) found = map answer pkgs.
Proof. exact check_alike. Qed.
(** So the API databases of a run give the same with one size as with another. *)
Theorem C92_served : forall (post : string -> string -> http -> Prop) (get : string -> http -> Prop) E answer n m, served post get E -> (forall u h h', get u h -> get u h' -> h = h') ->
  (forall a, one_by_one post (bulk_endpoint a) answer) -> 1 <= n < 2 ^ 63 -> 1 <= m < 2 ^ 63 -> indifferent E n m.
Proof. exact served_indifferent. Qed.
(** And then two runs with different sizes end alike: the same steps, results,
    errors, files and exit code; only the size that is told differs. *)
Theorem C92_run : forall E O m, 1 <= o_batch O -> 1 <= m -> indifferent E (o_batch O) m -> bounded E O ->
  forall fs cache r s r' s', run E O (start fs cache) = (r, s) -> run E (with_batch O m) (start fs cache) = (r', s') ->
  r = r' /\ Forall2 (rebatched E (o_batch O) m) (s_trace s) (s_trace s') /\ s_files s = s_files s' /\ s_cache s = s_cache s'.
Proof. exact batch_run. Qed.
Print Assumptions C92_check.
Print Assumptions C92_served.
Print Assumptions C92_run.

(** a server that lists an advisory for each query that has the word in it *)
Definition bt_answer (word : string) (q : json) : list string := if contains (print q) word then ["GHSA-1"] else [].
Definition bt_result (word : string) (q : json) : json :=
  if contains (print q) word then JObj [("vulns", JArr [JObj [("id", JStr "GHSA-1")]])] else JObj [].
Definition bt_post (word u body : string) : http :=
  match Json.parse body with
  | Some (JObj [(_, JArr qs)]) => HResp 200 (Some (print (batch_json (map (bt_result word) qs))))
  | _ => HFailed
  end.
Definition bt_env (word : string) : Env := mkEnv ad_world num_sem isort (fun _ l => l) (fun _ s => s) (fun _ => "err")
  (fun v => JObj [("id", JStr (o_id v))]) mx_stat ad_impl (fun _ => None) (fun u => u) yj_dec yj_enc (fun _ => true)
  (fun _ => api_exec isort ex_dec (bt_post word) ad_get) "v".
Lemma bt_one word a : one_by_one (fun u b h => h = bt_post word u b) (bulk_endpoint a) (fun p => bt_answer word (norm (query_json (build_payload p)))).
Proof.
  intros b h ->. unfold bt_post, payload. set (qs := map (fun p => query_json (build_payload p)) b).
  assert (Q : forall q, In q qs -> nums_ok q = true /\ (depth q <= 2)%N).
  { intros q I. apply in_map_iff in I as (p & <- & _). destruct (build_payload_spec p); split; vm_compute; reflexivity || discriminate. }
  rewrite parse_print_norm.
  - cbn [norm map fst snd]. change (to_valid "queries") with "queries". eexists. split; [reflexivity|]. split.
    + apply dec_batch_shape.
      * cbn [batch_json good forallb fst snd]. change (seqb (to_valid "results") "results") with true. cbn [andb]. rewrite andb_true_r.
        apply forallb_forall. intros j I. apply in_map_iff in I as (q & <- & _). unfold bt_result. now destruct (contains _ _).
      * change (depth (batch_json ?l)) with (N.succ (N.max (depth (JArr l)) 0)). apply (N.le_trans _ 5); [|vm_compute; discriminate].
        enough (depth (JArr (map (bt_result word) (map norm qs))) <= 4)%N by lia. cbn [depth]. apply (depth_arr 3). apply Forall_forall.
        intros j I. apply in_map_iff in I as (q & <- & _). unfold bt_result. destruct (contains _ _); vm_compute; discriminate.
      * unfold qs. rewrite !map_map. clear. induction b as [|p b IH]; cbn [map]; constructor; [|exact IH].
        unfold bt_result, bt_answer. destruct (contains _ _); [|constructor]. apply (res_vulns ["GHSA-1"] [[]]); [reflexivity|]. repeat constructor.
    + now rewrite map_length.
  - cbn [nums_ok forallb fst snd]. rewrite andb_true_r. apply forallb_forall. intros q I. now apply Q.
  - change (depth (JObj [("queries", JArr qs)])) with (N.succ (N.max (depth (JArr qs)) 0)). apply (N.le_trans _ 4); [|vm_compute; discriminate].
    enough (depth (JArr qs) <= 3)%N by lia. cbn [depth]. apply (depth_arr 2). apply Forall_forall. intros j I. now apply Q.
Qed.
Lemma bt_indifferent word n m : 1 <= n < 2 ^ 63 -> 1 <= m < 2 ^ 63 -> indifferent (bt_env word) n m.
Proof.
  apply (C92_served (fun u b h => h = bt_post word u b) (fun u h => h = ad_get u) (bt_env word) (fun p => bt_answer word (norm (query_json (build_payload p))))).
  - intros k a pkgs. exact (C79_executes isort ex_dec (bt_post word) ad_get a pkgs).
  - intros; congruence.
  - intros a. apply bt_one.
Qed.
Lemma bt_bounded word : bounded (bt_env word) (ad_opts []).
Proof.
  intros p l e. unfold parse_lockfile. destruct (split_parse_as p) as [a path]. destruct (seqb a parse_as_csv_row); [|destruct (seqb a parse_as_csv_file)].
  - unfold from_csv_rows. destruct (from_csv _ _) as [ps x] eqn:F. vm_compute in F. injection F as <- <-. intros H. injection H as <- _. vm_compute. discriminate.
  - intros H. injection H as <- _. vm_compute. discriminate.
  - cbn [e_impl e_sort bt_env]. unfold Lockfile.parse. destruct (find_parser path a) as [[f|] name].
    + assert (F : exists ps x, ad_impl f path = Ok (ps, x) /\ zlen ps <= 2) by (destruct f; do 2 eexists; (split; [reflexivity|vm_compute; discriminate])).
      destruct F as (ps & x & -> & F). cbn [rbind]. intros H. injection H as <- _. cbn [lf_pkgs]. unfold zlen in *.
      pose proof (Permutation_length (proj1 (isort_ok _ pkg_less ps))) as Q. change (sort_slice isort Pkg pkg_less ps) with (isort Pkg pkg_less ps) in Q. etransitivity; [apply Nat2Z.inj_le, Nat.eq_le_incl; symmetry; exact Q|]. lia.
    + intros H. injection H as <- _. vm_compute. discriminate.
Qed.
Notation bt_run word n := (run (bt_env word) (with_batch (ad_opts []) n) (start (fun _ => FNotExist) (fun _ => None))).
Definition is_api (e : ev) : bool := match e with EApi _ _ => true | _ => false end.
(** two packages, one at a time and both at once *)
Example C92_case : fst (bt_run "lib" 1) = Ok 1 /\ fst (bt_run "lib" 1000) = Ok 1 /\ fst (bt_run "else" 1000) = Ok 0
  /\ s_trace (snd (bt_run "lib" 1)) <> s_trace (snd (bt_run "lib" 1000))
  /\ Forall2 (rebatched (bt_env "lib") 1 1000) (s_trace (snd (bt_run "lib" 1))) (s_trace (snd (bt_run "lib" 1000))).
Proof.
  split; [vm_compute; reflexivity|]. split; [vm_compute; reflexivity|]. split; [vm_compute; reflexivity|]. split.
  - intros H. apply (f_equal (map (fun e => match e with EApi a _ => api_batch a | _ => 0 end))) in H. vm_compute in H. discriminate.
  - assert (B : bounded (bt_env "lib") (with_batch (ad_opts []) 1)) by exact (bt_bounded "lib").
    apply (C92_run (bt_env "lib") (with_batch (ad_opts []) 1) 1000 ltac:(cbn; lia) ltac:(lia) (bt_indifferent "lib" 1 1000 ltac:(lia) ltac:(lia)) B
             (fun _ => FNotExist) (fun _ => None) _ _ _ _ (surjective_pairing _) (surjective_pairing _)).
Qed.

(** A size below one is an error of each API database, so it does change a run. *)
Theorem C92_zero_refuted : exists E O fs cache, 1 <= o_batch O
  /\ fst (run E O (start fs cache)) = Ok 1 /\ fst (run E (with_batch O 0) (start fs cache)) = Ok 127.
Proof.
  exists (bt_env "lib"), (ad_opts []), (fun _ => FNotExist), (fun _ => None). split; [cbn; lia|]. split; vm_compute; reflexivity.
Qed.
(** A server that takes the whole batch into account makes the size matter. *)
Theorem C92_server_refuted : exists E O m fs cache, 1 <= o_batch O /\ 1 <= m /\ bounded E O
  /\ fst (run E O (start fs cache)) = Ok 1 /\ fst (run E (with_batch O m) (start fs cache)) = Ok 127.
Proof.
  exists (ad_env true), (ad_opts []), 2, (fun _ => FNotExist), (fun _ => None). split; [cbn; lia|]. split; [lia|]. split; [exact (bt_bounded "lib")|].
  split; vm_compute; reflexivity.
Qed.
Print Assumptions C92_zero_refuted.
Print Assumptions C92_server_refuted.
