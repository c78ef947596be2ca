(** Property theorems about dir databases and configurations (C26 to C30). *)
From Verif Require Import GoStr GoStrFacts GoSort Types Json Path PathFacts MemDB Api ZipDB DirDB DirDBSpec DirDBProofs DbConfig Configer ListSpec ConfigSpec ConfigProofs OsvExamples ConfigExamples.

(** C26: for a file: URL and a directory from which nothing disappears while it
    is read, exactly the readable, valid *.json files at any depth are loaded,
    each once (the paths in [l] are distinct), in path order. *)
Theorem C26_directory_advisories : forall dec parse_uri fs url wd names u,
  (exists r, url = "file:" +s+ r) -> parse_uri url = Some u ->
  let p := path_join [trim_prefix (u_path u) "/"; wd] in
  sorted_node (fs p) -> ~ vanished (fs p) ->
  exists l, dir_load dec parse_uri fs url wd names = inr (load_all names (map snd l))
    /\ (forall q o, In (q, o) l <-> advisory_at dec (path_base p) (fs p) q o)
    /\ NoDup (map fst l) /\ StronglySorted path_lt (map fst l).
Proof. exact dir_load_ok. Qed.
(** it fails iff the location is not a file: URL or is no URL, or the directory
    (or something listed in it) is not there *)
Theorem C26_failures : forall dec parse_uri fs url wd names,
  (exists e, dir_load dec parse_uri fs url wd names = inl e) <->
  ((forall r, url <> "file:" +s+ r) \/ parse_uri url = None
   \/ exists u, parse_uri url = Some u /\ vanished (fs (path_join [trim_prefix (u_path u) "/"; wd]))).
Proof. exact dir_load_err. Qed.
Theorem C26_failure_kind : forall dec parse_uri fs url wd names e, dir_load dec parse_uri fs url wd names = inl e ->
  (e = DProtocol <-> forall r, url <> "file:" +s+ r) /\ (e = DUrl -> parse_uri url = None).
Proof. exact dir_error_kind. Qed.
(** the path is taken relative to the current directory, the URL's slash being
    dropped, with the working directory below it *)
Theorem C26_relative_path : forall l wd, Forall elem l -> Forall elem wd -> l <> [] ->
  path_join [trim_prefix (abs_path l) "/"; join "/" wd] = join "/" (l ++ wd).
Proof. exact dir_relative. Qed.
Print Assumptions C26_directory_advisories.
Print Assumptions C26_failures.
Print Assumptions C26_failure_kind.
Print Assumptions C26_relative_path.
Example C26_case : dir_load ex_dec (fun _ => Some (mkURL "/db" (fun s => s))) (fun p => if seqb p "db" then ex_tree else NGone) "file:/db" "" ["lib"]
    = inr (load_all ["lib"] [ex_osv; ex_alias])
  /\ sorted_node ex_tree /\ ~ vanished ex_tree
  /\ advisory_at ex_dec "db" ex_tree ["b"; "c.json"; "d.json"] ex_alias.
Proof.
  split; [vm_compute; reflexivity|]. split; [|split].
  - repeat (constructor; cbn; try reflexivity).
  - intros H. pose proof (visits_gone ex_dec [] ex_tree H "" empty_db) as K. vm_compute in K. discriminate.
  - exists "alias". split; [|split; [now exists "d"|reflexivity]].
    eapply ap_below; [right; left; reflexivity|]. eapply ap_below; [left; reflexivity|]. eapply ap_below; [left; reflexivity|]. constructor.
Qed.

(** C27: the databases of several configs, once per identifier, first
    occurrences in order *)
Theorem C27_unique_configs : forall configs,
  first_of_each identifier [] (List.concat configs) (unique_db_configs configs).
Proof. exact unique_first. Qed.
Theorem C27_once_and_all : forall configs,
  NoDup (map identifier (unique_db_configs configs))
  /\ incl (unique_db_configs configs) (List.concat configs)
  /\ (forall c, In c (List.concat configs) -> In (identifier c) (map identifier (unique_db_configs configs))).
Proof. exact unique_once. Qed.
(** identifiers tell databases apart when types and urls contain no '#' *)
Theorem C27_identifier : forall c d,
  has_char "#" (dc_type c) = false -> has_char "#" (dc_type d) = false ->
  has_char "#" (dc_url c) = false -> has_char "#" (dc_url d) = false ->
  identifier c = identifier d <-> dc_type c = dc_type d /\ dc_url c = dc_url d /\ dc_wd c = dc_wd d.
Proof. exact identifier_inj. Qed.
(** otherwise not: the second database is then never loaded *)
Theorem C27_identifier_refuted : exists c d, dc_url c <> dc_url d /\ dc_type c = dc_type d
  /\ unique_db_configs [[c; d]] = [c].
Proof. exact identifier_clash. Qed.
Print Assumptions C27_unique_configs.
Print Assumptions C27_once_and_all.
Print Assumptions C27_identifier.
Print Assumptions C27_identifier_refuted.
Example C27_case : unique_db_configs [ex_dbs; [mkDC "other name" "zip" "https://x/a.zip" "npm/"; mkDC "" "api" "https://x" ""]; ex_dbs]
  = ex_dbs ++ [mkDC "" "api" "https://x" ""].
Proof. vm_compute. reflexivity. Qed.

(** C28: the entries of a config file *)
Theorem C28_entries : forall parse_uri l cs es, to_configs parse_uri l = (cs, es) <-> entries parse_uri l cs es.
Proof. exact to_configs_entries. Qed.
(** a database type is refused when loading iff it is none of the three, so
    never for the entries kept *)
Theorem C28_loadable : forall W cache c offline batch names w reqs t,
  load_db W cache c offline batch names = (Ok (inl (LType t)), w, reqs)
  <-> (~ loadable_type (dc_type c) /\ t = dc_type c /\ w = None /\ reqs = []).
Proof. exact load_unsupported. Qed.
(** what loading does for each type *)
Theorem C28_load_zip : forall W cache c offline batch names r w reqs, dc_type c = "zip" ->
  zip_load (w_unzip W) (w_dec_osv W) (dc_url c) (dc_wd c) offline names cache (w_answer W) = (r, w, reqs) ->
  exists r', load_db W cache c offline batch names = (r', w, reqs)
    /\ (forall db date, r = Ok (inr (db, date)) -> exists d, r' = Ok (inr d) /\ d = ZipD (dc_name c) (identifier c) db date)
    /\ (forall e, r = Ok (inl e) -> r' = Ok (inl (LZip e))) /\ (r = Panic -> r' = Panic).
Proof. exact load_zip. Qed.
Theorem C28_load_api : forall W cache c offline batch names, dc_type c = "api" ->
  load_db W cache c offline batch names =
  (match new_api_db (w_parse_uri W) (dc_name c) (identifier c) (dc_url c) offline batch with
   | inl e => Ok (inl (LApi e)) | inr a => Ok (inr (ApiD a)) end, None, []).
Proof. exact load_api. Qed.
Theorem C28_load_dir : forall W cache c offline batch names, dc_type c = "dir" ->
  load_db W cache c offline batch names =
  (match dir_load (w_dec_osv W) (w_parse_uri W) (w_tree W) (dc_url c) (dc_wd c) names with
   | inl e => Ok (inl (LDir e)) | inr db => Ok (inr (DirD (dc_name c) (identifier c) db)) end, None, []).
Proof. exact load_dir. Qed.
Print Assumptions C28_entries.
Print Assumptions C28_loadable.
Print Assumptions C28_load_zip.
Print Assumptions C28_load_api.
Print Assumptions C28_load_dir.
Example C28_case : to_configs ex_parse_uri ex_raws = (ex_dbs, [BadURL; BadType "ftp"]).
Proof. vm_compute. reflexivity. Qed.

(** C29: looking for a config in a directory *)
Theorem C29_found : forall parse_uri dec fs dir c errs,
  let yml := clean (dir +s+ "/.osv-detector.yml") in let yaml := clean (dir +s+ "/.osv-detector.yaml") in
  find_config parse_uri dec fs dir = inr (c, errs) <->
  (exists raw, usable dec (fs yml) raw /\ config_from parse_uri yml raw c errs)
  \/ (fs yml = FNotExist /\ exists raw, usable dec (fs yaml) raw /\ config_from parse_uri yaml raw c errs)
  \/ (fs yml = FNotExist /\ fs yaml = FNotExist /\ c = empty_config /\ errs = []).
Proof. exact find_good. Qed.
Theorem C29_errors : forall parse_uri dec fs dir,
  let yml := clean (dir +s+ "/.osv-detector.yml") in let yaml := clean (dir +s+ "/.osv-detector.yaml") in
  (exists e, find_config parse_uri dec fs dir = inl e) <->
  (broken dec (fs yml) \/ (fs yml = FNotExist /\ broken dec (fs yaml))).
Proof. exact find_bad. Qed.
Theorem C29_path : forall l name, Forall elem l -> elem name -> clean (abs_path l +s+ "/" +s+ name) = abs_path (l ++ [name]).
Proof. exact find_path. Qed.
(** --config: an explicitly given file that is missing is an error too *)
Theorem C29_explicit : forall parse_uri dec fs path c errs, load_config parse_uri dec fs path = inr (c, errs) <->
  exists raw, usable dec (fs (clean path)) raw /\ config_from parse_uri (clean path) raw c errs.
Proof. exact load_config_good. Qed.
Print Assumptions C29_found.
Print Assumptions C29_errors.
Print Assumptions C29_path.
Print Assumptions C29_explicit.
Example C29_case : find_config ex_parse_uri yj_dec (fun p => if seqb p "/a/.osv-detector.yaml" then FOk (yj_enc ex_raw) else FNotExist) "/a"
    = inr (mkCfg "/a/.osv-detector.yaml" ["CVE-1"] ex_dbs, [BadURL; BadType "ftp"])
  /\ find_config ex_parse_uri yj_dec (fun p => if seqb p "/a/.osv-detector.yml" then FError else FOk (yj_enc ex_raw)) "/a"
    = inl (CUnreadable "/a/.osv-detector.yml").
Proof. split; vm_compute; reflexivity. Qed.

(** C30: after an update the file reads back with the same databases, valid or
    not, and exactly the new ignores (for a YAML library that reads back what it
    wrote) *)
Theorem C30_update : forall parse_uri dec enc fs openable path ignores new raw c errs,
  dec (enc (mkRC ignores (rc_dbs raw))) = Some (mkRC ignores (rc_dbs raw)) ->
  update_with_ignores dec enc fs openable path ignores = inr new ->
  usable dec (fs (clean path)) raw -> load_config parse_uri dec fs path = inr (c, errs) ->
  dec new = Some (mkRC ignores (rc_dbs raw))
  /\ load_config parse_uri dec (fun p => if seqb p (clean path) then FOk new else fs p) path = inr (mkCfg (cf_path c) ignores (cf_dbs c), errs).
Proof. exact update_keeps. Qed.
(** it writes iff the config can be read and opened *)
Theorem C30_writes_iff_readable : forall dec enc fs openable path ignores new,
  update_with_ignores dec enc fs openable path ignores = inr new <->
  exists raw, usable dec (fs (clean path)) raw /\ openable path = true /\ new = enc (mkRC ignores (rc_dbs raw)).
Proof. exact update_spec. Qed.
(** a crash after the truncation loses the databases, silently: the empty file
    is a valid empty config *)
Theorem C30_crash_safe_refuted : exists dec enc fs path ignores new torn c,
  (forall raw, raw = mkRC ignores ex_raws -> dec (enc raw) = Some raw)
  /\ update_with_ignores dec enc fs (fun _ => true) path ignores = inr new /\ written None new (Some torn)
  /\ load_config ex_parse_uri dec fs path = inr (c, [BadURL; BadType "ftp"]) /\ cf_dbs c = ex_dbs
  /\ load_config ex_parse_uri dec (fun p => if seqb p (clean path) then FOk torn else fs p) path = inr (mkCfg (clean path) [] [], []).
Proof. exact update_crash. Qed.
Print Assumptions C30_update.
Print Assumptions C30_writes_iff_readable.
Print Assumptions C30_crash_safe_refuted.
Example C30_case : exists new, update_with_ignores yj_dec yj_enc (fun _ => FOk (yj_enc ex_raw)) (fun _ => true) "c.yml" ["A"; "B"] = inr new
  /\ yj_dec new = Some (mkRC ["A"; "B"] ex_raws) /\ yj_dec (yj_enc (mkRC ["A"; "B"] ex_raws)) = Some (mkRC ["A"; "B"] ex_raws).
Proof. eexists. split; [vm_compute; reflexivity|]. split; vm_compute; reflexivity. Qed.
