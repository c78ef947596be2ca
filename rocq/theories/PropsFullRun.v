(** Property theorems about all that a run says on os.Stderr (C80). *)
From Verif Require Import GoStr GoStrFacts GoSort GoSortFacts GoMap Types Osv OsvSpec MemDB Path Api ZipDB ZipSpec DirDB DirDBSpec DbConfig Configer Lockfile LockfileSpec Csv Report Json Main MainSpec EndSpec EndProofs Warnings WarningsSpec SemNum OsvExamples ConfigExamples MainExamples PropsEnd FullRun FullRunSpec FullRunProofs FullTalkProofs FullWordsProofs FullNotedProofs FullParseProofs.

(** C80: apart from its notices, and if caches can be written and advisories
    printed (C83 is about those that cannot), a run does what Main.v says *)
Theorem C80_erased : forall E V O, (forall path, v_write_err V path = None) -> (forall v, v_osv_err V v = None) ->
  forall s r s' o, run_full E V O s = (r, s', o) -> run E O s = (r, s') /\ s_trace s' = s_trace s ++ dids o.
Proof. intros E V O W P s r s' o. now apply run_erased. Qed.
(** whatever a run comes to, it tells its notices where the grammar has them *)
Theorem C80_told : forall E V O, SorterOk (e_sort E) -> EntriesOk E ->
  forall fs cache r s' o, run_full E V O (start fs cache) = (r, s', o) -> exists L, talk E V O cache [] o (s_cache s') L.
Proof. exact run_talks. Qed.
(** so a load is followed by its complaint about the cache, its requests, and
    its complaints about the advisories that it cannot use *)
Theorem C80_load : forall E V O, SorterOk (e_sort E) -> EntriesOk E ->
  forall fs cache r s' before c rest, run_full E V O (start fs cache) = (r, s', before ++ Did (ELoad c) :: rest) ->
  exists file names res w reqs said said' tail,
    ((forall d, In (Did (ELoad d)) before -> e_cache_path E (dc_url d) <> e_cache_path E (dc_url c)) -> file = cache (e_cache_path E (dc_url c)))
    /\ load_db (e_world E) file c (o_offline O) (o_batch O) names = (res, w, reqs)
    /\ first_words E V c file said /\ last_words E V O c names file res w said'
    /\ rest = map Note said ++ map (fun q => Did (EZip q)) reqs ++ map Note said' ++ tail.
Proof.
  intros E V O HS EO fs cache r s' before c rest H. destruct (run_talks E V O HS EO _ _ _ _ _ H) as (L & T).
  destruct (talk_load _ _ _ _ _ _ _ _ T _ _ _ eq_refl) as (f1 & L1 & ns & res & w & rq & s1 & s2 & tl & B & LD & FW & LW & Q & _).
  exists (f1 (e_cache_path E (dc_url c))), ns, res, w, rq, s1, s2, tl. split; [|auto]. intros N. eapply talk_file; [exact B|exact N].
Qed.
(** and every notice is a parser's about a file given, a load's, or about an
    advisory of a database loaded that says nothing about a package listed *)
Theorem C80_reasons : forall E V O, SorterOk (e_sort E) -> EntriesOk E ->
  forall fs cache r s' o, run_full E V O (start fs cache) = (r, s', o) ->
  exists L, (forall d, In d L -> from_load E O d o) /\ forall t, In (Note t) o -> reason E V O L o t.
Proof.
  intros E V O HS EO fs cache r s' o H. destruct (run_talks E V O HS EO _ _ _ _ _ H) as (L & T). exists L. split.
  - intros d I. destruct (talk_loaded _ _ _ _ _ _ _ _ T d I) as [[]|X]. exact X.
  - exact (talk_reason _ _ _ _ _ _ _ _ T).
Qed.
(** each parser called has its notices told *)
Theorem C80_parsed : forall E V O, SorterOk (e_sort E) -> EntriesOk E ->
  forall fs cache code s' o l e mode, run_full E V O (start fs cache) = (Ok code, s', o) -> checking O -> known_as (o_parse_as O) ->
  inputs E O l e -> mode_of E O fs mode ->
  forall q c a path parser, In q l -> split_parse_as (as_arg q) = (a, path) -> a <> "csv-row" -> a <> "csv-file" -> fst (find_parser path a) = Some parser ->
  config_for E fs path mode (Some c) -> forall t, In t (v_parser V parser path) -> In (Note t) o.
Proof.
  intros E V O HS EO fs cache code s' o l e mode H HC KN IN MO q c a path parser Q SP N1 N2 FP CF t I.
  assert (CF' : config_for E fs (snd (split_parse_as (as_arg q))) mode (Some c)) by now rewrite SP.
  apply (run_parsers_say E V O HS EO _ _ _ _ _ _ _ _ H HC KN IN MO q c Q CF'). apply in_map. unfold parse_says. rewrite SP.
  unfold parse_as_csv_row, parse_as_csv_file. destruct (seqb_spec a "csv-row"); [contradiction|]. destruct (seqb_spec a "csv-file"); [contradiction|]. cbn [orb]. now rewrite FP.
Qed.
(** if a run exits 0 or 1, an advisory in use that names a package but says
    nothing about its versions is told of *)
Theorem C80_mentioned : forall E V O, SorterOk (e_sort E) -> IterOk (e_iter E) -> EntriesOk E -> (forall path, v_write_err V path = None) ->
  forall fs cache code s' out, checking O -> distinct_names E O fs -> run_full E V O (start fs cache) = (Ok code, s', out) -> code = 0%Z \/ code = 1%Z ->
  forall l c d p o a, uses E O fs l c d -> In p (lf_pkgs l) -> has_char ":" (p_eco p) = false ->
  must_hold E O cache d o -> o_withdrawn o = None -> In a (o_affected o) -> names a p -> (forall a, In a (o_affected o) -> names a p -> bare a) ->
  In (Note (bare_notice (o_id o))) out.
Proof. exact run_mentions. Qed.
Print Assumptions C80_erased.
Print Assumptions C80_told.
Print Assumptions C80_load.
Print Assumptions C80_reasons.
Print Assumptions C80_parsed.
Print Assumptions C80_mentioned.

(** the yarn.lock of C70, whose archive also has an advisory that cannot be read
    and one that says nothing *)
Definition fr_bare : OSV := mkOSV "GHSA-9" [] "" "" "" None "" [mkAff (mkOPkg "lib" "npm") [] []].
Definition fr_dec (s : string) : OSV * bool := if seqb s "bare" then (fr_bare, false) else ex_dec s.
Definition fr_world : World :=
  mkWorld ex_parse_uri (fun s => if seqb s "zip" then Some [("a.json", Some "good"); ("b.json", Some "bad"); ("c.json", Some "bare")] else None) fr_dec
    (fun q => ZResp 200 "e" "today" (Some "zip")) ed_tree.
Definition fr_env : Env := mkEnv fr_world num_sem isort (fun _ l => l) (fun _ s => s) (fun _ => "err")
  (fun v => JObj [("id", JStr (o_id v))]) mx_stat ed_impl (fun _ => None) (fun u => u) yj_dec yj_enc (fun _ => true) mx_api "v".
Definition fr_voice (locked : bool) : Voice :=
  mkVoice (fun f path => match f with ParseYarnLock => ["odd: " +s+ path] | _ => [] end) (fun s => "no " +s+ s) (fun s => "lost " +s+ s)
    (fun path => if locked then Some "locked" else None) (fun _ => None).
Definition fr_run locked ignores cache := run_full fr_env (fr_voice locked) (ed_opts true ignores) (start (ed_files []) cache).
Definition said (o : list out) : list string := flat_map (fun x => match x with Note t => [t] | Did _ => [] end) o.
Definition fr_url : string := dc_url (ecosystem_config "npm").
Example C80_case :
  fst (fst (fr_run false [] (fun _ => None))) = Ok 1%Z
  /\ said (snd (fr_run false [] (fun _ => None))) = ["odd: e/yarn.lock"; "b.json is not a valid JSON file: no bad" +s+ newline; bare_notice "GHSA-9"]
  /\ said (snd (fr_run true [] (fun _ => Some "??"))) =
       ["odd: e/yarn.lock"; "Failed to parse cache from " +s+ fr_url +s+ ": no ??" +s+ newline; "Failed to write cache to " +s+ fr_url +s+ ": locked" +s+ newline;
        "b.json is not a valid JSON file: no bad" +s+ newline; bare_notice "GHSA-9"].
Proof. split; [vm_compute; reflexivity|]. split; vm_compute; reflexivity. Qed.
(** the hypotheses of C80_mentioned hold of GHSA-9 *)
Example C80_mentioned_case : let d := ecosystem_config "npm" in
  must_hold fr_env (ed_opts true []) (fun _ => None) d fr_bare /\ o_withdrawn fr_bare = None
  /\ (exists a, In a (o_affected fr_bare) /\ names a (ex_pkg "1.0")) /\ forall a, In a (o_affected fr_bare) -> bare a.
Proof.
  split; [|split; [reflexivity|split]].
  - apply st_zip; [reflexivity|]. intros entries (before & body & date & w & rq & C & F & U).
    assert (B : body = "zip"). { unfold fetch_zip in F. cbn [ed_opts o_offline w_answer fr_env e_world fr_world] in F.
      change (Z.eqb 200 304) with false in F. change (negb (Z.eqb 200 200)) with false in F. cbv beta iota zeta in F. congruence. }
    subst body. cbn in U. injection U as <-. exists ("c.json", Some "bare"). split; [cbn; auto|].
    split; [now exists "c.json"|]. split; [now exists "c"|]. exists "bare". auto.
  - assert (P : eco_parts "npm" "npm" "") by (right; auto). eexists. split; [now left|]. split.
    + exists "npm", "", "npm", "". auto 6.
    + exists "npm", "". split; [exact P|]. right. split; [discriminate|reflexivity].
  - intros a [<-|[]]. split; reflexivity.
Qed.
Definition is_npm (c : DBConfig) : bool := seqb (dc_name c) "npm" && seqb (dc_type c) "zip" && seqb (dc_url c) fr_url && seqb (dc_wd c) "".
Lemma load_there o : existsb (fun x => match x with Did (ELoad c) => is_npm c | _ => false end) o = true -> In (Did (ELoad (ecosystem_config "npm"))) o.
Proof.
  intros L. apply existsb_exists in L as ([e|t] & I & L); [|discriminate]. destruct e as [| | |c| | | |]; try discriminate.
  unfold is_npm in L. apply andb_prop in L as [L L4]. apply andb_prop in L as [L L3]. apply andb_prop in L as [L1 L2].
  apply seqb_eq in L1, L2, L3, L4. replace (ecosystem_config "npm") with c; [exact I|]. destruct c as [n ty u wd]. cbn [dc_name dc_type dc_url dc_wd] in *. now subst.
Qed.
Lemma note_there t o : existsb (fun x => match x with Note u => seqb u t | _ => false end) o = true -> In (Note t) o.
Proof. intros N. apply existsb_exists in N as ([|u] & I & N); [discriminate|]. apply seqb_eq in N. now subst. Qed.
Lemma fr_parts {A B C} (x : A * B * C) a : fst (fst x) = a -> x = (a, snd (fst x), snd x).
Proof. destruct x as [[? ?] ?]. cbn. now intros ->. Qed.
(** an advisory that cannot be read is told of but does not count as an error:
    a run that tells of one can exit 0 *)
Theorem C80_exit_refuted : exists E V O fs cache s' o c entries name content,
  SorterOk (e_sort E) /\ IterOk (e_iter E) /\ EntriesOk E /\ checking O /\ (forall path, v_write_err V path = None)
  /\ run_full E V O (start fs cache) = (Ok 0%Z, s', o) /\ In (Did (ELoad c)) o
  /\ archive E O cache c entries /\ In (name, Some content) entries /\ looked_at (dc_wd c) (name, Some content) /\ snd (w_dec_osv (e_world E) content) = true
  /\ In (Note (invalid_notice (v_json_err V) name content)) o.
Proof.
  exists fr_env, (fr_voice false), (ed_opts true ["GHSA-1"]), (ed_files []), (fun _ => None), (snd (fst (run_full fr_env (fr_voice false) (ed_opts true ["GHSA-1"]) (start (ed_files []) (fun _ => None))))),
    (snd (run_full fr_env (fr_voice false) (ed_opts true ["GHSA-1"]) (start (ed_files []) (fun _ => None)))), (ecosystem_config "npm"),
    [("a.json", Some "good"); ("b.json", Some "bad"); ("c.json", Some "bare")], "b.json", "bad".
  split; [exact isort_ok|]. split; [intros A l; apply Permutation_refl|]. split; [exact ed_entries|]. split; [now repeat split|]. split; [reflexivity|].
  split; [apply fr_parts; vm_compute; reflexivity|].
  split; [|split; [|split; [cbn; auto|split; [split; [now exists "b.json"|now exists "b"]|split; [reflexivity|]]]]].
  - apply load_there. vm_compute. reflexivity.
  - exists None, "zip", "today". do 2 eexists. split; [apply ca_start|]. split; [|reflexivity]. unfold fetch_zip. cbn [ed_opts o_offline w_answer fr_env e_world fr_world].
    change (Z.eqb 200 304) with false. change (negb (Z.eqb 200 200)) with false. cbv beta iota zeta. reflexivity.
  - apply note_there. vm_compute. reflexivity.
Qed.
Print Assumptions C80_exit_refuted.
