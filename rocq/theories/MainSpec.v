(** Specification of whole runs, in terms of what a run is seen to do (its
    trace) and of the files it is given. *)
From Coq Require Export Sorting.Sorted.
From Verif Require Import GoStr Types Osv OsvSpec MemDB MemDBSpec Path Api ZipDB DbConfig Configer Lockfile LockfileSpec Csv Report ReportSpec Main.

(** the checks made in a run, in order *)
Record checked := mkChk { ck_cfg : string; ck_dbs : list string; ck_ignores : list string;
                          ck_raw : list (list (list OSV)); ck_report : Report }.
Definition checks (tr : list ev) : list checked :=
  flat_map (fun e => match e with ECheck c d i w r => [mkChk c d i w r] | _ => [] end) tr.
(** the databases a run tried to load, and those it failed to load *)
Definition loads (tr : list ev) : list DBConfig :=
  flat_map (fun e => match e with ELoad c => [c] | _ => [] end) tr.
Definition failures (tr : list ev) : list DBConfig :=
  flat_map (fun e => match e with ELoadFailed c _ => [c] | _ => [] end) tr.
Definition messages (k : kind) (tr : list ev) : list string :=
  flat_map (fun e => match e, k with
                     | EOut KErr _ t, KErr => [t] | EOut KText _ t, KText => [t]
                     | EOut KRes _ t, KRes => [t] | EOut KDoc _ t, KDoc => [t]
                     | _, _ => [] end) tr.
Definition stdout (tr : list ev) : list string :=
  flat_map (fun e => match e with EOut _ Stdout t => [t] | _ => [] end) tr.

(** ** discovery *)
(** an argument is PATH or PARSER:PATH, cut at the first colon *)
Definition means (arg parser path : string) : Prop :=
  (has_char ":" arg = false /\ parser = "" /\ path = arg)
  \/ (has_char ":" parser = false /\ arg = parser +s+ ":" +s+ path).
Definition recognised (name parse_as : string) : Prop :=
  parse_as = "csv-file" \/ (parse_as = "" /\ In name supported) \/ (parse_as <> "" /\ In parse_as supported).
(** directories list plain names *)
Definition EntriesOk (E : Env) : Prop := forall path entries, e_stat E path = KDir entries ->
  Forall (fun en => fst en <> "" /\ has_char "/" (fst en) = false) entries.
(** what one path gives: the files, sorted, and whether it is an error *)
Inductive finds (E : Env) (path parse_as : string) : list string -> bool -> Prop :=
| fi_unreadable : e_stat E path = KNoOpen -> finds E path parse_as [] true
| fi_broken : e_stat E path = KNoStat \/ e_stat E path = KNoReadDir -> finds E path parse_as [] false
| fi_file : e_stat E path = KFile -> finds E path parse_as [path] false
| fi_dir : forall entries chosen l, e_stat E path = KDir entries ->
    selects (fun en => snd en = false /\ recognised (fst en) parse_as) entries chosen ->
    Permutation (map (fun en => path_join [path; fst en]) chosen) l ->
    StronglySorted (fun a b => a = b \/ str_lt a b) l ->
    finds E path parse_as l false.
(** all arguments; the files are given with the parser to use for each *)
Inductive finds_all (E : Env) (global : string) : list string -> list (string * string) -> bool -> Prop :=
| fa_nil : finds_all E global [] [] false
| fa_arg : forall arg args parser path parse_as l e rest er,
    means arg parser path -> parse_as = (if seqb parser "" then global else parser) ->
    finds E path parse_as l e -> finds_all E global args rest er ->
    finds_all E global (arg :: args) (map (fun p => (parse_as, clean p)) l ++ rest) (e || er).

(** ** databases in use *)
Definition writes (tr : list ev) : list (string * string) :=
  flat_map (fun e => match e with EWriteConfig p c => [(p, c)] | _ => [] end) tr.
Definition given {A} (l : list (option A)) : list A :=
  flat_map (fun o => match o with Some a => [a] | None => [] end) l.
(** what a loaded database answers while the k-th file is checked: its advisories
    may have been reordered by earlier checks; only the API can fail *)
Inductive answers (E : Env) (k : nat) (pkgs : list Pkg) : DB -> option (list (list OSV)) -> Prop :=
| an_zip : forall n i db0 db date rs db', history (e_sort E) (e_sem E) db0 db ->
    check (e_sort E) (e_sem E) db pkgs = Ok (rs, db') -> answers E k pkgs (ZipD n i db0 date) (Some rs)
| an_dir : forall n i db0 db rs db', history (e_sort E) (e_sem E) db0 db ->
    check (e_sort E) (e_sem E) db pkgs = Ok (rs, db') -> answers E k pkgs (DirD n i db0) (Some rs)
| an_api : forall a rs, e_api E k a pkgs = Ok (inr rs) -> answers E k pkgs (ApiD a) (Some rs)
| an_api_fails : forall a e, e_api E k a pkgs = Ok (inl e) -> answers E k pkgs (ApiD a) None.
(** the ignores that count for a config *)
Definition ignores_of (O : Opts) (c : Config) : list string :=
  (if o_no_ignores O then [] else cf_ignore c) ++ o_ignores O.
(** the check of a lockfile with a config, given the loaded databases *)
Inductive check_of (E : Env) (O : Opts) (k : nat) (ds : list DB) (l : Lockfile) (c : Config) : checked -> Prop :=
| co_intro : forall used ans rows,
    selects (fun d => In (db_ident d) (map identifier (cf_dbs c))) ds used ->
    Forall2 (answers E k (lf_pkgs l)) used ans ->
    transpose_all (lf_pkgs l) (ignores_of O c) 0 (given ans) = Ok rows ->
    check_of E O k ds l c (mkChk (cf_path c) (map db_ident used) (ignores_of O c) (given ans) (mkRep l rows)).

(** ** reading *)
(** the configs of a run: looked up beside each lockfile, or one for all *)
Inductive cfg_mode := Beside | Same (c : Config).
Inductive mode_of (E : Env) (O : Opts) (fs : string -> fread) : cfg_mode -> Prop :=
| mo_none : o_no_config O = true -> mode_of E O fs (Same empty_config)
| mo_beside : o_no_config O = false -> o_config O = "" -> mode_of E O fs Beside
| mo_global : forall c errs, o_no_config O = false -> o_config O <> "" ->
    load_config (w_parse_uri (e_world E)) (e_dec_yaml E) fs (o_config O) = inr (c, errs) -> mode_of E O fs (Same c).
(** what reading a lockfile (given as parser:path) gives: an error, or the
    lockfile and the config it uses *)
Inductive reading := Unusable | Usable (l : Lockfile) (c : Config).
Inductive config_for (E : Env) (fs : string -> fread) (path : string) : cfg_mode -> option Config -> Prop :=
| cf_same : forall c, config_for E fs path (Same c) (Some c)
| cf_beside : forall c errs, find_config (w_parse_uri (e_world E)) (e_dec_yaml E) fs (path_dir path) = inr (c, errs) ->
    config_for E fs path Beside (Some c)
| cf_bad : forall e, find_config (w_parse_uri (e_world E)) (e_dec_yaml E) fs (path_dir path) = inl e ->
    config_for E fs path Beside None.
Inductive reads (E : Env) (O : Opts) (fs : string -> fread) (mode : cfg_mode) (p : string) : reading -> Prop :=
| rd_config : config_for E fs (snd (split_parse_as p)) mode None -> reads E O fs mode p Unusable
| rd_parse : forall c l e, config_for E fs (snd (split_parse_as p)) mode (Some c) ->
    parse_lockfile E O p = Ok (l, Some e) -> reads E O fs mode p Unusable
| rd_ok : forall c l, config_for E fs (snd (split_parse_as p)) mode (Some c) ->
    parse_lockfile E O p = Ok (l, None) -> reads E O fs mode p (Usable l c).
Definition usables (rs : list reading) : list (Lockfile * Config) :=
  flat_map (fun r => match r with Usable l c => [(l, c)] | Unusable => [] end) rs.

(** the databases wanted for a lockfile on its own *)
Definition wanted (O : Opts) (l : Lockfile) (c : Config) (d : DBConfig) : Prop :=
  (o_no_dbs O = false /\ In d (cf_dbs c))
  \/ (o_use_api O = true /\ d = api_config)
  \/ (o_use_dbs O = true /\ exists p, In p (lf_pkgs l) /\ p_eco p <> "" /\ d = ecosystem_config (p_eco p)).

(** ** loading: each config gives a database or fails *)
(** what the cache file at a path may hold during a run: what it held at the
    start, or what a load of the run left there *)
Inductive cached (E : Env) (O : Opts) (cache : files) (path : string) : option string -> Prop :=
| ca_start : cached E O cache path (cache path)
| ca_saved : forall names c before r content reqs, e_cache_path E (dc_url c) = path -> cached E O cache path before ->
    load_db (e_world E) before c (o_offline O) (o_batch O) names = (r, Some content, reqs) ->
    cached E O cache path (Some content).
Definition loads_as (E : Env) (O : Opts) (cache : files) (names : list string) (c : DBConfig) (o : load_err + DB) : Prop :=
  exists before w reqs, cached E O cache (e_cache_path E (dc_url c)) before
    /\ load_db (e_world E) before c (o_offline O) (o_batch O) names = (Ok o, w, reqs).
Inductive loaded (E : Env) (O : Opts) (cache : files) (names : list string) : list DBConfig -> list DB -> list DBConfig -> Prop :=
| ld_nil : loaded E O cache names [] [] []
| ld_ok : forall c cs d ds fs, loads_as E O cache names c (inr d) -> loaded E O cache names cs ds fs ->
    loaded E O cache names (c :: cs) (d :: ds) fs
| ld_fail : forall c cs e ds fs, loads_as E O cache names c (inl e) -> loaded E O cache names cs ds fs ->
    loaded E O cache names (c :: cs) ds (c :: fs).

(** ** which databases a lockfile is checked against *)
Definition shared (m : cfg_mode) : Prop := m = Same empty_config.
(** the files read, the lockfile in question and its config: as long as every
    lockfile has a config of its own, the databases wanted for it; without
    configs, those wanted for any lockfile -- or, with --no-config-databases,
    only those of the last *)
Inductive asks (O : Opts) (us : list (Lockfile * Config)) : cfg_mode -> Lockfile -> Config -> DBConfig -> Prop :=
| as_own : forall m l c d, ~ shared m -> wanted O l c d -> asks O us m l c d
| as_shared : forall m l c d l0 c0, shared m -> o_no_dbs O = false -> In (l0, c0) us -> wanted O l0 c0 d -> asks O us m l c d
| as_last : forall m l c d us' l0 c0, shared m -> o_no_dbs O = true -> us = us' ++ [(l0, c0)] -> wanted O l0 c0 d -> asks O us m l c d.
(** the config in effect when a lockfile is checked *)
Definition in_effect (O : Opts) (us : list (Lockfile * Config)) (m : cfg_mode) (l : Lockfile) (c c' : Config) : Prop :=
  cf_path c' = cf_path c /\ cf_ignore c' = cf_ignore c
  /\ forall id, In id (map identifier (cf_dbs c')) <-> exists d, asks O us m l c d /\ identifier d = id.

(** ** whole runs *)
(** a run that checks: none of the flags that make it do something else *)
Definition checking (O : Opts) : Prop := o_version O = false /\ o_list_eco O = false /\ o_list_pkgs O = false.
Definition known_as (a : string) : Prop := a = "" \/ a = "csv-file" \/ a = "csv-row" \/ In a supported.
(** the files of a run (parser, path), and whether a path could not be read *)
Inductive inputs (E : Env) (O : Opts) : list (string * string) -> bool -> Prop :=
| in_rows : o_parse_as O = "csv-row" -> inputs E O [("csv-row", "-")] false
| in_found : forall l e, o_parse_as O <> "csv-row" -> finds_all E (o_parse_as O) (o_args O) l e -> inputs E O l e.
Definition as_arg (q : string * string) : string := fst q +s+ ":" +s+ snd q.
Definition idle (tr : list ev) : Prop := checks tr = [] /\ loads tr = [] /\ failures tr = [] /\ writes tr = [].
(** a check that found something not ignored *)
Definition flawed (ck : checked) : Prop := advisories (ck_report ck) <> [].
(** the exit code, given the readings *)
Inductive exits (rs : list reading) (tr : list ev) : Z -> Prop :=
| ex_unread : In Unusable rs \/ failures tr <> [] -> exits rs tr 127
| ex_found : ~ In Unusable rs -> failures tr = [] -> Exists flawed (checks tr) -> exits rs tr 1
| ex_error : ~ In Unusable rs -> failures tr = [] -> ~ Exists flawed (checks tr) -> messages KErr tr <> [] -> exits rs tr 127
| ex_clean : ~ In Unusable rs -> failures tr = [] -> ~ Exists flawed (checks tr) -> messages KErr tr = [] -> exits rs tr 0.
(** the lockfiles read are checked, in order, each against the databases it asks
    for, all of which are loaded, once *)
Record session (E : Env) (O : Opts) (fs : string -> fread) (cache : files) (mode : cfg_mode) (paths : list string)
    (rs : list reading) (names : list string) (ds : list DB) (tr : list ev) : Prop := mkSession {
  ss_mode : mode_of E O fs mode;
  ss_reads : Forall2 (reads E O fs mode) paths rs;
  ss_names : forall l c p, In (l, c) (usables rs) -> In p (lf_pkgs l) -> In (p_name p) names;
  ss_asked : forall id, In id (map identifier (loads tr)) <->
    exists l c d, In (l, c) (usables rs) /\ asks O (usables rs) mode l c d /\ identifier d = id;
  ss_once : NoDup (map identifier (loads tr));
  ss_loaded : loaded E O cache names (loads tr) ds (failures tr);
  ss_checks : Forall2 (fun '((l, c) : Lockfile * Config) ck =>
      exists k c', in_effect O (usables rs) mode l c c' /\ check_of E O k ds l c' ck) (usables rs) (checks tr);
  ss_from : forall d, In d (loads tr) -> exists l c, In (l, c) (usables rs) /\ asks O (usables rs) mode l c d }.
(** what goes wrong in a run: a path that cannot be opened, a lockfile or its
    config that cannot be read, an invalid database in a config, a database that
    fails to load or to answer, a config that cannot be written *)
Definition lacking (ck : checked) : Prop := List.length (ck_raw ck) <> List.length (ck_dbs ck).
Inductive mishap (E : Env) (O : Opts) (fs : string -> fread) (paths : list string) (e : bool) (mode : cfg_mode)
    (rs : list reading) (tr : list ev) : Prop :=
| mh_path : e = true -> mishap E O fs paths e mode rs tr
| mh_read : In Unusable rs -> mishap E O fs paths e mode rs tr
| mh_global : forall c errs, mode <> Beside -> o_no_config O = false ->
    load_config (w_parse_uri (e_world E)) (e_dec_yaml E) fs (o_config O) = inr (c, errs) -> errs <> [] ->
    mishap E O fs paths e mode rs tr
| mh_beside : forall p c errs, mode = Beside -> In p paths ->
    find_config (w_parse_uri (e_world E)) (e_dec_yaml E) fs (path_dir (snd (split_parse_as p))) = inr (c, errs) -> errs <> [] ->
    mishap E O fs paths e mode rs tr
| mh_load : failures tr <> [] -> mishap E O fs paths e mode rs tr
| mh_answer : Exists lacking (checks tr) -> mishap E O fs paths e mode rs tr
| mh_update : forall ck, o_update O = true -> In ck (checks tr) -> ck_cfg ck <> "" -> e_openable E (ck_cfg ck) = false ->
    mishap E O fs paths e mode rs tr.
(** the results a run shows: as text one by one, or as one document *)
Definition shown (E : Env) (O : Opts) (tr : list ev) (rs : list Result) : Prop :=
  messages KRes tr = (if o_json O then [] else map (result_string (e_col E)) rs)
  /\ messages KDoc tr = (if o_json O then [results_json (e_osv_json E) rs] else []).
(** how a checking run ends *)
Inductive outcome (E : Env) (O : Opts) (fs : string -> fread) (cache : files) (tr : list ev) : Z -> Prop :=
| oc_parser : ~ known_as (o_parse_as O) -> idle tr -> messages KErr tr <> [] -> outcome E O fs cache tr 127
| oc_nothing : forall e, known_as (o_parse_as O) -> inputs E O [] e -> idle tr -> messages KErr tr <> [] ->
    outcome E O fs cache tr (if negb e && negb (Nat.eqb (List.length (o_args O)) 0) then 128 else 127)
| oc_config : forall l e er, known_as (o_parse_as O) -> inputs E O l e -> l <> [] ->
    o_no_config O = false -> o_config O <> "" ->
    load_config (w_parse_uri (e_world E)) (e_dec_yaml E) fs (o_config O) = inl er -> idle tr -> messages KErr tr <> [] ->
    outcome E O fs cache tr 127
| oc_session : forall l e mode rs names ds code, known_as (o_parse_as O) -> inputs E O l e -> l <> [] ->
    session E O fs cache mode (map as_arg l) rs names ds tr -> exits rs tr code ->
    (mishap E O fs (map as_arg l) e mode rs tr -> messages KErr tr <> []) -> outcome E O fs cache tr code.

(** ** --list-packages *)
Definition listing (O : Opts) : Prop := o_version O = false /\ o_list_eco O = false /\ o_list_pkgs O = true.
(** touches nothing: only writes messages *)
Definition only_output (tr : list ev) : Prop := Forall (fun e => exists k s t, e = EOut k s t) tr.
Inductive listed_as (E : Env) (O : Opts) : list (string * string) -> list (option Lockfile) -> Prop :=
| la_nil : listed_as E O [] []
| la_bad : forall q l lf e rs, parse_lockfile E O (as_arg q) = Ok (lf, Some e) -> listed_as E O l rs -> listed_as E O (q :: l) (None :: rs)
| la_good : forall q l lf rs, parse_lockfile E O (as_arg q) = Ok (lf, None) -> listed_as E O l rs -> listed_as E O (q :: l) (Some lf :: rs).
Inductive list_outcome (E : Env) (O : Opts) (tr : list ev) : Z -> Prop :=
| lo_parser : ~ known_as (o_parse_as O) -> messages KErr tr <> [] -> shown E O tr [] -> list_outcome E O tr 127
| lo_nothing : forall e, known_as (o_parse_as O) -> inputs E O [] e -> messages KErr tr <> [] -> shown E O tr [] ->
    list_outcome E O tr (if negb e && negb (Nat.eqb (List.length (o_args O)) 0) then 128 else 127)
| lo_files : forall l e rs code, known_as (o_parse_as O) -> inputs E O l e -> l <> [] -> listed_as E O l rs ->
    shown E O tr (map RLock (given rs)) ->
    (code = 127%Z /\ messages KErr tr <> [] \/ code = 0%Z /\ messages KErr tr = []) ->
    (messages KErr tr <> [] <-> e = true \/ In None rs) -> list_outcome E O tr code.
