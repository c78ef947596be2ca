(** Property theorems about whole runs (C20, C33 to C39, C66). *)
From Verif Require Import GoStr GoStrFacts GoSort GoMap Types Osv OsvSpec MemDB MemDBSpec Path Api ZipDB DirDB DbConfig Configer ConfigSpec Lockfile LockfileSpec Csv Report ReportSpec Json JsonRound Main MainSpec DiscoverProofs RunFacts ListProofs UpdateProofs RunEnd OsvExamples ConfigExamples MainExamples.
From Verif Require JsonSpec JsonGrammar.

(** C20: offline, no run makes a request, finished or not *)
Theorem C20_run : forall E O fs cache r s', IterOk (e_iter E) -> o_offline O = true ->
  run E O (start fs cache) = (r, s') ->
  Forall (fun e => match e with EZip _ | EApi _ _ => False | _ => True end) (s_trace s').
Proof. exact offline_silent. Qed.
Print Assumptions C20_run.
Example C20_run_case :
  let O offline := mkOpts offline "" "" false false false false false false false false true true 1000 [] ["e"] in
  (exists s, mx_run (O true) = (Ok 127%Z, s))
  /\ flat_map (fun e => match e with EZip q => [rq_url q] | EApi a _ => [api_name a] | _ => [] end) (s_trace (snd (mx_run (O false))))
     = ["https://osv-vulnerabilities.storage.googleapis.com/npm/all.zip"; "osv.dev v1 API"].
Proof. split; [eexists|]; vm_compute; reflexivity. Qed.

(** C33: how a checking run ends: which lockfiles are read with which configs,
    what is loaded, what is checked, and the exit code ([outcome]) *)
Theorem C33_outcome : forall E O, SorterOk (e_sort E) -> IterOk (e_iter E) -> EntriesOk E ->
  forall fs cache code s', checking O -> run E O (start fs cache) = (Ok code, s') -> outcome E O fs cache (s_trace s') code.
Proof. exact run_outcome. Qed.
(** 0 iff no error message and no un-ignored vulnerability *)
Theorem C33_zero : forall E O, SorterOk (e_sort E) -> IterOk (e_iter E) -> EntriesOk E ->
  forall fs cache code s', checking O -> run E O (start fs cache) = (Ok code, s') ->
  (code = 0%Z <-> messages KErr (s_trace s') = [] /\ ~ Exists flawed (checks (s_trace s'))).
Proof. exact exit_zero. Qed.
(** 1 only if there is one and every database was loaded *)
Theorem C33_one : forall E O, SorterOk (e_sort E) -> IterOk (e_iter E) -> EntriesOk E ->
  forall fs cache code s', checking O -> run E O (start fs cache) = (Ok code, s') -> code = 1%Z ->
  failures (s_trace s') = [] /\ Exists flawed (checks (s_trace s')).
Proof. exact exit_one. Qed.
(** 128 iff paths were given, none could not be opened and nothing was found *)
Theorem C33_128 : forall E O, SorterOk (e_sort E) -> IterOk (e_iter E) -> EntriesOk E ->
  forall fs cache code s', checking O -> run E O (start fs cache) = (Ok code, s') ->
  (code = 128%Z <-> known_as (o_parse_as O) /\ o_args O <> [] /\ inputs E O [] false).
Proof. exact exit_128. Qed.
Print Assumptions C33_outcome.
Print Assumptions C33_zero.
Print Assumptions C33_one.
Print Assumptions C33_128.
Example C33_case : map (fun args => fst (mx_run (mx_opts args))) [["d/go.mod"]; ["d"]; ["e"]; ["empty"]; ["gone"]; []]
  = [Ok 1%Z; Ok 127%Z; Ok 0%Z; Ok 128%Z; Ok 127%Z; Ok 127%Z].
Proof. vm_compute. reflexivity. Qed.

(** C34: after --update-config-ignores a config used in a check holds, sorted,
    exactly the IDs its lockfiles' reports listed, and the same databases; no
    other file changes *)
Theorem C34_written : forall E O, SorterOk (e_sort E) -> IterOk (e_iter E) -> EntriesOk E -> checking O ->
  forall fs cache code s', o_update O = true -> run E O (start fs cache) = (Ok code, s') ->
  let tr := s_trace s' in
  (forall p, (forall ck, In ck (checks tr) -> ck_cfg ck <> p) -> s_files s' p = fs p)
  /\ (forall ck, In ck (checks tr) -> ck_cfg ck <> "" -> e_openable E (ck_cfg ck) = true ->
      exists ids raw, usable (e_dec_yaml E) (fs (ck_cfg ck)) raw /\ s_files s' (ck_cfg ck) = FOk (e_enc_yaml E (mkRC ids (rc_dbs raw)))
        /\ In (ck_cfg ck, e_enc_yaml E (mkRC ids (rc_dbs raw))) (writes tr)
        /\ StronglySorted (fun a b => a = b \/ str_lt a b) ids
        /\ forall id, In id ids <-> exists ck', In ck' (checks tr) /\ ck_cfg ck' = ck_cfg ck /\ In id (seen_ids (ck_report ck')))
  /\ (forall p c, In (p, c) (writes tr) -> exists ck, In ck (checks tr) /\ ck_cfg ck = p /\ p <> "").
Proof. exact run_update. Qed.
(** without the flag no config changes *)
Theorem C34_only_on_request : forall E O, SorterOk (e_sort E) -> IterOk (e_iter E) -> EntriesOk E -> checking O ->
  forall fs cache code s', o_update O = false -> run E O (start fs cache) = (Ok code, s') -> s_files s' = fs.
Proof. exact run_no_update. Qed.
(** so in a later run (with its own flags and world) a package for which the
    databases find the same is reported with nothing un-ignored *)
Theorem C34_next_package : forall E1 O1 E2 O2 fs c1 c2 r1 r2 s1 s2,
  SorterOk (e_sort E1) -> IterOk (e_iter E1) -> EntriesOk E1 -> SorterOk (e_sort E2) -> IterOk (e_iter E2) -> EntriesOk E2 ->
  checking O1 -> o_update O1 = true -> checking O2 -> o_no_ignores O2 = false -> e_dec_yaml E2 = e_dec_yaml E1 ->
  run E1 O1 (start fs c1) = (Ok r1, s1) -> run E2 O2 (start (s_files s1) c2) = (Ok r2, s2) ->
  forall k1 k2, In k1 (checks (s_trace s1)) -> In k2 (checks (s_trace s2)) -> ck_cfg k2 = ck_cfg k1 -> ck_cfg k1 <> "" ->
  e_openable E1 (ck_cfg k1) = true ->
  (forall rc, In (ck_cfg k1, e_enc_yaml E1 rc) (writes (s_trace s1)) -> e_dec_yaml E1 (e_enc_yaml E1 rc) = Some rc) ->
  forall i j row1 row2, nth_error (rp_pkgs (ck_report k1)) i = Some row1 -> nth_error (rp_pkgs (ck_report k2)) j = Some row2 ->
  found (ck_raw k2) j = found (ck_raw k1) i -> pv_vulns row2 = [].
Proof. exact next_run. Qed.
Theorem C34_next_clean : forall E1 O1 E2 O2 fs c1 c2 r1 r2 s1 s2,
  SorterOk (e_sort E1) -> IterOk (e_iter E1) -> EntriesOk E1 -> SorterOk (e_sort E2) -> IterOk (e_iter E2) -> EntriesOk E2 ->
  checking O1 -> o_update O1 = true -> checking O2 -> o_no_ignores O2 = false -> e_dec_yaml E2 = e_dec_yaml E1 ->
  run E1 O1 (start fs c1) = (Ok r1, s1) -> run E2 O2 (start (s_files s1) c2) = (Ok r2, s2) ->
  forall k1 k2, In k1 (checks (s_trace s1)) -> In k2 (checks (s_trace s2)) -> ck_cfg k2 = ck_cfg k1 -> ck_cfg k1 <> "" ->
  e_openable E1 (ck_cfg k1) = true ->
  (forall rc, In (ck_cfg k1, e_enc_yaml E1 rc) (writes (s_trace s1)) -> e_dec_yaml E1 (e_enc_yaml E1 rc) = Some rc) ->
  lf_pkgs (rp_lock (ck_report k2)) = lf_pkgs (rp_lock (ck_report k1)) -> ck_raw k2 = ck_raw k1 -> ~ flawed k2.
Proof. exact next_clean. Qed.
Print Assumptions C34_written.
Print Assumptions C34_only_on_request.
Print Assumptions C34_next_package.
Print Assumptions C34_next_clean.
Example C34_case :
  let O := mkOpts false "" "" false true false false false false false false false false 1000 [] ["d/go.mod"] in
  let s1 := snd (mx_run O) in
  fst (mx_run O) = Ok 1%Z /\ s_files s1 "d/.osv-detector.yml" = FOk (yj_enc (mkRC ["A"; "B"] (rc_dbs mx_conf)))
  /\ yj_dec (yj_enc (mkRC ["A"; "B"] (rc_dbs mx_conf))) = Some (mkRC ["A"; "B"] (rc_dbs mx_conf))
  /\ fst (run mx_env (mx_opts ["d"; "d/go.mod"]) (start (s_files s1) (fun _ => None))) = Ok 127%Z
  /\ fst (run mx_env (mx_opts ["d/go.mod"]) (start (s_files s1) (fun _ => None))) = Ok 0%Z
  /\ map ck_cfg (checks (s_trace s1)) = ["d/.osv-detector.yml"].
Proof. repeat split; vm_compute; reflexivity. Qed.

(** C35: each lockfile read is checked, against exactly the databases it asks
    for ([asks]) that loaded, each once; what a database that answers returns
    is used as it is, and one that fails to answer is left out *)
Theorem C35_own_databases : forall E O fs cache code s', SorterOk (e_sort E) -> IterOk (e_iter E) -> EntriesOk E -> checking O ->
  run E O (start fs cache) = (Ok code, s') -> checks (s_trace s') <> [] ->
  exists l e mode rs, inputs E O l e /\ mode_of E O fs mode /\ Forall2 (reads E O fs mode) (map as_arg l) rs
    /\ List.length (checks (s_trace s')) = List.length (usables rs)
    /\ forall i lf c ck, nth_error (usables rs) i = Some (lf, c) -> nth_error (checks (s_trace s')) i = Some ck ->
       rp_lock (ck_report ck) = lf /\ ck_cfg ck = cf_path c /\ ck_ignores ck = ignores_of O c /\ NoDup (ck_dbs ck)
       /\ (forall id, In id (ck_dbs ck) <-> (exists d, asks O (usables rs) mode lf c d /\ identifier d = id)
                                           /\ ~ In id (map identifier (failures (s_trace s'))))
       /\ exists k used ans, ck_dbs ck = map db_ident used /\ Forall2 (answers E k (lf_pkgs lf)) used ans /\ ck_raw ck = given ans.
Proof. exact own_databases. Qed.
Print Assumptions C35_own_databases.
Definition zip_of (eco : string) : string := identifier (ecosystem_config eco).
Example C35_case :
  let O nc := mkOpts false "" "" nc false false false false false false false true false 1000 [] ["d/go.mod"; "e"] in
  map ck_dbs (checks (s_trace (snd (mx_run (O false))))) = [["api#https://x/y"; zip_of "Go"]; [zip_of "npm"]]
  /\ map ck_dbs (checks (s_trace (snd (mx_run (O true))))) = [[zip_of "Go"; zip_of "npm"]; [zip_of "Go"; zip_of "npm"]].
Proof. split; vm_compute; reflexivity. Qed.
(** with --no-config and --no-config-databases together a lockfile may be
    checked against none of the databases of its ecosystems *)
Theorem C35_shared_refuted : exists E O fs cache code s' ck p, SorterOk (e_sort E) /\ IterOk (e_iter E) /\ EntriesOk E /\ checking O
  /\ o_use_dbs O = true /\ run E O (start fs cache) = (Ok code, s') /\ failures (s_trace s') = []
  /\ In ck (checks (s_trace s')) /\ In p (lf_pkgs (rp_lock (ck_report ck))) /\ ~ In (zip_of (p_eco p)) (ck_dbs ck).
Proof.
  set (O := mkOpts false "" "" true false false true false false false false true false 1000 [] ["d/go.mod"; "e"]).
  exists mx_env, O, mx_files, (fun _ => None), 0%Z, (snd (mx_run O)),
    (mkChk "" [zip_of "npm"] [] [[[]; []]] (mkRep (mkLF "d/go.mod" "go.mod" [mkPkg "bad" "1" "" "Go" "Go"; mkPkg "fine" "2" "" "Go" "Go"])
       [mkPV (mkPkg "bad" "1" "" "Go" "Go") [] []; mkPV (mkPkg "fine" "2" "" "Go" "Go") [] []])), (mkPkg "bad" "1" "" "Go" "Go").
  split; [exact mx_sort|]. split; [exact mx_iter|]. split; [exact mx_entries|]. split; [repeat split|]. split; [reflexivity|].
  split; [vm_compute; reflexivity|]. split; [vm_compute; reflexivity|]. split; [vm_compute; now left|]. split; [now left|].
  vm_compute. intros [H|[]]. discriminate.
Qed.
Print Assumptions C35_shared_refuted.

(** C36: the parser and path put into one string come out unchanged *)
Theorem C36_round_trip : forall a p, has_char ":" a = false -> split_parse_as (a +s+ ":" +s+ p) = (a, p).
Proof. exact split_encode. Qed.
(** which holds for every file a run finds *)
Theorem C36_run : forall E O l e, known_as (o_parse_as O) -> inputs E O l e -> Forall (fun q => split_parse_as (as_arg q) = q) l.
Proof. exact inputs_round. Qed.
(** and an argument is read as its meaning *)
Theorem C36_argument : forall arg a p, means arg a p <-> split_parse_as arg = (a, p).
Proof. exact split_means. Qed.
Print Assumptions C36_round_trip.
Print Assumptions C36_run.
Print Assumptions C36_argument.
Example C36_case : split_parse_as "go.mod:C:\a:b" = ("go.mod", "C:\a:b") /\ means ":a:b" "" "a:b".
Proof. split; [vm_compute; reflexivity|]. right. split; reflexivity. Qed.

(** C37: the files found are those [finds_all] says, in that order *)
Theorem C37_discovery : forall E O, SorterOk (e_sort E) -> EntriesOk E -> forall s, o_parse_as O <> "csv-row" ->
  exists l e s', find_all_lockfiles E O s = (Ok (map as_arg l, e), s') /\ finds_all E (o_parse_as O) (o_args O) l e.
Proof. exact discovery. Qed.
(** whatever order the directory is listed in *)
Theorem C37_listing_order : forall E E' g args l e, finds_all E g args l e -> forall l' e', same_entries E E' ->
  finds_all E' g args l' e' -> l = l' /\ e = e'.
Proof. exact finds_all_unique. Qed.
Print Assumptions C37_discovery.
Print Assumptions C37_listing_order.
Example C37_case : let find a args := fst (find_all_lockfiles mx_env (mkOpts false a "" false false false false false false false false false false 0 [] args) (start mx_files (fun _ => None))) in
  find "" ["d"; "pom.xml:e"; "d/go.mod"; "gone"] = Ok ([":d/Cargo.lock"; ":d/go.mod"; "pom.xml:e/yarn.lock"; ":d/go.mod"], true)
  /\ find "csv-file" ["d"] = Ok (["csv-file:d/Cargo.lock"; "csv-file:d/README"; "csv-file:d/go.mod"], false).
Proof. split; vm_compute; reflexivity. Qed.
(** a path that opens but cannot be listed is not an error: it is passed over
    as if it were empty *)
Theorem C37_unlisted_refuted : exists E O fs cache s', SorterOk (e_sort E) /\ IterOk (e_iter E) /\ EntriesOk E /\ checking O
  /\ In "odd" (o_args O) /\ e_stat E "odd" = KNoReadDir /\ run E O (start fs cache) = (Ok 0%Z, s') /\ messages KErr (s_trace s') = [].
Proof.
  exists mx_env, (mx_opts ["odd"; "e"]), mx_files, (fun _ => None). eexists.
  split; [exact mx_sort|]. split; [exact mx_iter|]. split; [exact mx_entries|]. split; [repeat split|]. split; [now left|]. split; [reflexivity|].
  split; [vm_compute; reflexivity|]. reflexivity.
Qed.
Print Assumptions C37_unlisted_refuted.

(** C38: with --json only the final document goes to stdout, in every run,
    even one that panics *)
Theorem C38_stdout : forall E O fs cache r s', IterOk (e_iter E) -> o_json O = true -> run E O (start fs cache) = (r, s') ->
  exists n d, s_trace s' = n ++ [EOut KDoc Stdout d] /\ stdout n = [] /\ messages KDoc n = [] /\ messages KRes n = [].
Proof. exact json_stdout. Qed.
(** it lists the reports in the order of the checks; without --json they are
    printed in that order *)
Theorem C38_reports : forall E O fs cache code s', o_list_pkgs O = false -> run E O (start fs cache) = (Ok code, s') ->
  shown E O (s_trace s') (map (fun c => RReport (ck_report c)) (checks (s_trace s'))).
Proof. exact run_shown. Qed.
(** and it is JSON, for any advisories printed as JSON *)
Theorem C38_parses : forall osv_json rs, (forall v, nums_ok (osv_json v) = true) ->
  JsonSpec.json_text (results_json osv_json rs) (norm (JObj [("results", JArr (map (result_json osv_json) rs))])).
Proof. intros oj rs N. apply JsonGrammar.text_iff. now apply doc_parses. Qed.
Print Assumptions C38_stdout.
Print Assumptions C38_reports.
Print Assumptions C38_parses.
Example C38_case : let O := mkOpts false "" "" false false false false false false false true false false 1000 [] ["d"; "e"] in
  stdout (s_trace (snd (mx_run O)))
  = ["{""results"":[{""filePath"":""d/go.mod"",""parsedAs"":""go.mod"",""packages"":[{""name"":""bad"",""version"":""1"",""ecosystem"":""Go"",""compareAs"":""Go"",""vulnerabilities"":[{""id"":""B""}],""ignored"":[{""id"":""A""}]},{""name"":""fine"",""version"":""2"",""ecosystem"":""Go"",""compareAs"":""Go"",""vulnerabilities"":[],""ignored"":[]}]},{""filePath"":""e/yarn.lock"",""parsedAs"":""yarn.lock"",""packages"":[{""name"":""bad"",""version"":""3"",""ecosystem"":""npm"",""compareAs"":""npm"",""vulnerabilities"":[],""ignored"":[]}]}]}"]
  /\ messages KErr (s_trace (snd (mx_run O))) <> [].
Proof. split; vm_compute; [reflexivity|discriminate]. Qed.

(** C39: with --list-packages a run only writes messages *)
Theorem C39_only_output : forall E O fs cache r s', IterOk (e_iter E) -> o_list_pkgs O = true ->
  run E O (start fs cache) = (r, s') -> only_output (s_trace s').
Proof. exact list_only_output. Qed.
(** and shows every lockfile read, in order *)
Theorem C39_listed : forall E O, SorterOk (e_sort E) -> IterOk (e_iter E) -> EntriesOk E ->
  forall fs cache code s', listing O -> run E O (start fs cache) = (Ok code, s') -> list_outcome E O (s_trace s') code.
Proof. exact run_list. Qed.
Print Assumptions C39_only_output.
Print Assumptions C39_listed.
Example C39_case : let O := mkOpts false "" "" false false false false false false true false true false 1000 [] ["d"] in
  fst (mx_run O) = Ok 127%Z /\ messages KRes (s_trace (snd (mx_run O))) = ["  Go: bad@1" +s+ newline +s+ "  Go: fine@2"].
Proof. split; vm_compute; reflexivity. Qed.

(** C66: error messages go to stderr, in every run *)
Theorem C66_stderr : forall E O fs cache r s', IterOk (e_iter E) -> run E O (start fs cache) = (r, s') ->
  forall st t, In (EOut KErr st t) (s_trace s') -> st = Stderr.
Proof. exact errors_stderr. Qed.
(** a run with one does not exit 0 *)
Theorem C66_exit : forall E O fs cache code s', SorterOk (e_sort E) -> IterOk (e_iter E) -> EntriesOk E ->
  o_version O = false -> o_list_eco O = false -> run E O (start fs cache) = (Ok code, s') ->
  messages KErr (s_trace s') <> [] -> code <> 0%Z.
Proof. exact error_exit. Qed.
(** everything that goes wrong ([mishap]) gives one (a run that checks nothing
    always gives one, by C33_outcome) *)
Theorem C66_surfaced : forall E O fs cache code s', SorterOk (e_sort E) -> IterOk (e_iter E) -> EntriesOk E -> checking O ->
  run E O (start fs cache) = (Ok code, s') -> checks (s_trace s') <> [] ->
  exists l e mode rs, inputs E O l e /\ mode_of E O fs mode /\ Forall2 (reads E O fs mode) (map as_arg l) rs
    /\ (mishap E O fs (map as_arg l) e mode rs (s_trace s') -> messages KErr (s_trace s') <> []).
Proof. exact mishaps_shown. Qed.
Print Assumptions C66_stderr.
Print Assumptions C66_exit.
Print Assumptions C66_surfaced.
(** the API failing (batches of 7): both lockfiles and the other databases are
    still checked *)
Example C66_case : let O := mkOpts false "" "" false false false false false false false true true false 7 [] ["d/go.mod"; "e"] in
  fst (mx_run O) = Ok 127%Z /\ map ck_dbs (checks (s_trace (snd (mx_run O)))) = [["api#https://x/y"; zip_of "Go"]; [zip_of "npm"]]
  /\ map ck_raw (checks (s_trace (snd (mx_run O)))) = [[[[]; []]]; [[[]]]].
Proof. repeat split; vm_compute; reflexivity. Qed.
