(** main.go (and reporter.go's output functions).  Flags are given
    parsed ([Opts]; parsing them is in Flags.v); the Windows case of main.go:409 is in Windows.v.  Messages
    the databases and parsers write straight to os.Stderr (they do not pass
    through the reporter and do not change the exit code) are left out. *)
From Verif Require Import GoStr GoSort Types Osv MemDB Path Api ZipDB DirDB DbConfig Configer GoMap Lockfile Csv Ecosystems Report Json.

(** main.go:500-522 the flags *)
Record Opts := mkOpts {
  o_offline : bool; o_parse_as : string; o_config : string; o_no_config : bool;
  o_update : bool; o_no_ignores : bool; o_no_dbs : bool; o_version : bool;
  o_list_eco : bool; o_list_pkgs : bool; o_json : bool; o_use_dbs : bool; o_use_api : bool;
  o_batch : Z; o_ignores : list string; o_args : list string }.
(** main.go:28,514-515 the defaults of --use-dbs and --use-api, given the
    environment variable OSV_DETECTOR_PREFER_API *)
Definition default_use_dbs (env : string) : bool := negb (seqb env "true").
Definition default_use_api (env : string) : bool := seqb env "true".

(** ** the outside world *)
Inductive any_err :=
| AParse (e : parse_err) | ACsvRows (e : from_err) | ACsvFile (e : csv_file_err)
| AConfig (e : cfg_err) | ADbConfig (path : string) (e : db_cfg_err)
| ALoad (e : load_err) | AApi (e : api_err) | AUpdate (e : upd_err) | AOpen (path : string).
(** os.Open of a path, Stat, ReadDir (entries: name, is a directory) *)
Inductive path_kind := KNoOpen | KNoStat | KNoReadDir | KFile | KDir (entries : list (string * bool)).

Record Env := mkEnv {
  e_world : World;
  e_sem : Semantic;
  e_sort : Sorter;
  e_iter : Iter;
  e_col : string -> string -> string;
  e_text : any_err -> string;                    (* error.Error() *)
  e_osv_json : OSV -> json;
  e_stat : string -> path_kind;
  e_impl : ParserFn -> Parser;                   (* the parsers, with the file system they read *)
  e_csv : string -> option string;               (* the content of a csv-file *)
  e_cache_path : string -> string;               (* zip.go:44-49 *)
  e_dec_yaml : string -> option raw_config;
  e_enc_yaml : raw_config -> string;
  e_openable : string -> bool;
  (* the outcome of APIDB.Check when the k-th file is checked (see Api.v) *)
  e_api : nat -> APIDB -> list Pkg -> res (api_err + list (list OSV));
  e_version_line : string }.

Inductive stream := Stdout | Stderr.
(** which function of the reporter wrote: PrintErrorf, PrintTextf, PrintResult,
    PrintJSONResults *)
Inductive kind := KErr | KText | KRes | KDoc.
(** what a run does, in order; [ECheck] is main.go:704, the check of one
    lockfile: its config's path, the identifiers of the databases used, the
    ignores, what the databases returned, and the report *)
Inductive ev :=
| EOut (k : kind) (s : stream) (text : string)
| EReadConfig (path : string)
| EWriteConfig (path content : string)
| ELoad (c : DBConfig)
| EZip (r : zreq)
| EApi (a : APIDB) (pkgs : list Pkg)
| ELoadFailed (c : DBConfig) (e : load_err)
| ECheck (cfg : string) (dbs ignores : list string) (raw : list (list (list OSV))) (r : Report).

Record St := mkSt {
  s_trace : list ev;
  s_errored : bool;                 (* reporter.go:20 hasErrored *)
  s_results : list Result;          (* reporter.go:18 *)
  s_heap : list Config;             (* the configs pointers refer to *)
  s_dbs : list DB;                  (* the loaded databases, which checks reorder in place *)
  s_files : string -> fread;        (* config files *)
  s_cache : files }.                (* cached archives *)

(** code that may write, change the state, and panic *)
Definition M (A : Type) := St -> res A * St.
Definition ret {A} (a : A) : M A := fun s => (Ok a, s).
Definition bind {A B} (m : M A) (f : A -> M B) : M B :=
  fun s => match m s with (Ok a, s') => f a s' | (Panic, s') => (Panic, s') end.
Notation "x <- m ; f" := (bind m (fun x => f)) (at level 61, m at next level, right associativity).
Notation "m ;; f" := (bind m (fun _ => f)) (at level 61, right associativity).
Definition lift {A} (r : res A) : M A := fun s => (r, s).
Fixpoint each {A} (f : A -> M unit) (l : list A) : M unit :=
  match l with [] => ret tt | a :: l' => f a ;; each f l' end.

Definition emit (e : ev) : M unit := fun s =>
  (Ok tt, mkSt (s_trace s ++ [e]) (s_errored s) (s_results s) (s_heap s) (s_dbs s) (s_files s) (s_cache s)).
Definition set_errored : M unit := fun s =>
  (Ok tt, mkSt (s_trace s) true (s_results s) (s_heap s) (s_dbs s) (s_files s) (s_cache s)).
Definition add_result (r : Result) : M unit := fun s =>
  (Ok tt, mkSt (s_trace s) (s_errored s) (s_results s ++ [r]) (s_heap s) (s_dbs s) (s_files s) (s_cache s)).
Definition set_heap (h : list Config) : M unit := fun s =>
  (Ok tt, mkSt (s_trace s) (s_errored s) (s_results s) h (s_dbs s) (s_files s) (s_cache s)).
Definition set_dbs (d : list DB) : M unit := fun s =>
  (Ok tt, mkSt (s_trace s) (s_errored s) (s_results s) (s_heap s) d (s_files s) (s_cache s)).
Definition set_files (f : string -> fread) : M unit := fun s =>
  (Ok tt, mkSt (s_trace s) (s_errored s) (s_results s) (s_heap s) (s_dbs s) f (s_cache s)).
Definition set_cache (c : files) : M unit := fun s =>
  (Ok tt, mkSt (s_trace s) (s_errored s) (s_results s) (s_heap s) (s_dbs s) (s_files s) c).
Definition get {A} (f : St -> A) : M A := fun s => (Ok (f s), s).

(** assignment through a pointer *)
Fixpoint upd {A} (l : list A) (i : nat) (a : A) : list A :=
  match l, i with [], _ => [] | _ :: l', O => a :: l' | x :: l', S i' => x :: upd l' i' a end.

Section Run.
Variable E : Env.
Variable O : Opts.

(** ** reporter.go *)
(** reporter.go:38-42 PrintErrorf *)
Definition print_error (text : string) : M unit := set_errored ;; emit (EOut KErr Stderr text).
(** reporter.go:49-57 PrintTextf *)
Definition print_text (text : string) : M unit :=
  emit (EOut KText (if o_json O then Stderr else Stdout) text).
(** reporter.go:63-71 PrintResult *)
Definition print_result (r : Result) : M unit :=
  if o_json O then add_result r else emit (EOut KRes Stdout (result_string (e_col E) r)).
(** reporter.go:75-87 PrintJSONResults *)
Definition print_json_results : M unit :=
  rs <- get s_results ; emit (EOut KDoc Stdout (results_json (e_osv_json E) rs)).
(** reporter.go:89-97 PrintDatabaseLoadErr *)
Definition is_offline_err (e : load_err) : bool :=
  match e with LZip ZOfflineNotFound => true | LApi ErrOffline => true | _ => false end.
Definition print_load_err (e : load_err) : M unit :=
  let msg := if is_offline_err e then e_col E "red" "no local version of the database was found, and --offline flag was set"
             else e_text E (ALoad e) in
  print_error (" " +s+ e_col E "red" ("failed: " +s+ msg) +s+ newline).
(** reporter.go:99-107 PrintKnownEcosystems *)
Definition print_known_ecosystems : M unit :=
  print_text ("The detector supports parsing for the following ecosystems:" +s+ newline) ;;
  each (fun e => print_text ("  " +s+ e +s+ newline)) known_ecosystems.

(** ** databases *)
(** main.go:31-37 makeAPIDBConfig *)
Definition api_config : DBConfig := mkDC "osv.dev v1 API" "api" "https://api.osv.dev/v1" "".
(** main.go:39-45 makeEcosystemDBConfig *)
Definition ecosystem_config (eco : string) : DBConfig :=
  mkDC eco "zip" ("https://osv-vulnerabilities.storage.googleapis.com/" +s+ eco +s+ "/all.zip") "".

(** one database's Check, with the database afterwards *)
Definition check_db (k : nat) (d : DB) (pkgs : list Pkg) : res ((api_err + list (list OSV)) * DB) :=
  match d with
  | ZipD n i db date => rbind (check (e_sort E) (e_sem E) db pkgs) (fun '(r, db') => Ok (inr r, ZipD n i db' date))
  | DirD n i db => rbind (check (e_sort E) (e_sem E) db pkgs) (fun '(r, db') => Ok (inr r, DirD n i db'))
  | ApiD a => rbind (e_api E k a pkgs) (fun r => Ok (r, d))
  end.
(** main.go:90-104; a database is its position in [s_dbs] *)
Fixpoint check_dbs (k : nat) (dbs : list nat) (lockf : Lockfile) : M (list (list (list OSV))) :=
  match dbs with
  | [] => ret []
  | i :: dbs' =>
      ds <- get s_dbs ;
      match nth_error ds i with
      | None => lift Panic
      | Some d =>
          (match d with ApiD a => emit (EApi a (lf_pkgs lockf)) | _ => ret tt end) ;;
          x <- lift (check_db k d (lf_pkgs lockf)) ;
          let '(r, d') := x in
          set_dbs (upd ds i d') ;;
          match r with
          | inl e =>
              print_error (e_col E "red" ("  an api error occurred while trying to check the packages listed in "
                           +s+ lf_path lockf +s+ ": " +s+ e_text E (AApi e) +s+ newline)) ;;
              check_dbs k dbs' lockf
          | inr results => rest <- check_dbs k dbs' lockf ; ret (results :: rest)
          end
      end
  end.
(** main.go:82-114 check *)
Definition check_lockfile (k : nat) (dbs : list nat) (lockf : Lockfile) (ignores : list string)
  : M (list (list (list OSV)) * Report) :=
  vulns <- check_dbs k dbs lockf ;
  pkgs <- lift (transpose_all (lf_pkgs lockf) ignores 0 vulns) ;
  ret (vulns, mkRep lockf pkgs).

(** main.go:118-130 forConfigs: positions of the databases to use *)
Definition for_configs (dbs : list DB) (configs : list DBConfig) : list nat :=
  flat_map (fun '(i, db) => flat_map (fun c => if seqb (identifier c) (db_ident db) then [i] else []) configs)
           (combine (seq 0 (List.length dbs)) dbs).

(** main.go:160-184 describeDB *)
Definition dec_of_Z (z : Z) : string :=
  match z with Z0 => "0" | Zpos p => dec_of_N (Npos p) | Zneg p => "-" +s+ dec_of_N (Npos p) end.
Definition describe_db (d : DB) : string :=
  let count db := e_col E "yellow" (dec_of_nat (m_count db)) +s+ " " +s+ form (m_count db) "vulnerability" "vulnerabilities"
                  +s+ ", including withdrawn" in
  match d with
  | ApiD a => "using batches of " +s+ e_col E "yellow" (dec_of_Z (api_batch a))
  | ZipD _ _ db date => count db +s+ " - last updated " +s+ date
  | DirD _ _ db => count db
  end.
Definition db_desc (d : DB) : string :=
  let desc := describe_db d in
  if negb (seqb desc "") then " (" +s+ desc +s+ ")" else desc.

(** main.go:206-227 the loop of loadDatabases *)
Fixpoint load_loop (configs : list DBConfig) (names : list string) : M (list DB * bool) :=
  match configs with
  | [] => ret ([], false)
  | c :: configs' =>
      print_text ("  " +s+ dc_name c) ;;
      emit (ELoad c) ;;
      cache <- get s_cache ;
      let path := e_cache_path E (dc_url c) in
      let '(r, w, reqs) := load_db (e_world E) (cache path) c (o_offline O) (o_batch O) names in
      each (fun q => emit (EZip q)) reqs ;;
      set_cache (match w with Some content => file_set cache path (Some content) | None => cache end) ;;
      x <- lift r ;
      match x with
      | inl e =>
          emit (ELoadFailed c e) ;;
          print_load_err e ;;
          y <- load_loop configs' names ; ret (fst y, true)
      | inr db =>
          print_text (db_desc db +s+ newline) ;;
          y <- load_loop configs' names ; ret (db :: fst y, snd y)
      end
  end.
(** main.go:186-232 loadDatabases *)
Definition load_databases (configs : list DBConfig) (names : list string) : M (list DB * bool) :=
  if o_list_pkgs O then ret ([], false)
  else
    print_text ("Loaded the following OSV databases:" +s+ newline) ;;
    r <- load_loop configs names ;
    print_text newline ;;
    ret r.

(** ** finding lockfiles *)
Definition parse_as_csv_file : string := "csv-file".
Definition parse_as_csv_row : string := "csv-row".
(** main.go:408-420 parseLockfilePathWithParseAs *)
Definition split_parse_as (s : string) : string * string :=
  if negb (contains s ":") then ("", s) else let '(a, p, _) := cut s ":" in (a, p).
(** main.go:249-261 *)
Definition dir_lockfiles (dir parse_as : string) (entries : list (string * bool)) : list string :=
  flat_map (fun '((name, is_dir) : string * bool) =>
    if is_dir then []
    else if negb (seqb parse_as parse_as_csv_file)
            && (match fst (find_parser name parse_as) with None => true | Some _ => false end) then []
    else [path_join [dir; name]]) entries.
(** main.go:237-276 findLockfiles.  The error variable of Stat and of ReadDir
    shadows the one reported. *)
Definition find_lockfiles (path parse_as : string) : M (list string * bool) :=
  let '(lockfiles, err) :=
    match e_stat E path with
    | KNoOpen => ([], true)
    | KNoStat => ([], false)
    | KNoReadDir => ([], false)
    | KFile => ([path], false)
    | KDir entries => (dir_lockfiles path parse_as entries, false)
    end in
  (if err : bool then print_error ("Error reading " +s+ path +s+ ": " +s+ e_text E (AOpen path) +s+ newline) else ret tt) ;;
  ret (e_sort E _ str_ltb lockfiles, err).
(** main.go:287-303 *)
Fixpoint find_all_loop (paths : list string) : M (list string * bool) :=
  match paths with
  | [] => ret ([], false)
  | p :: ps =>
      let '(a, path) := split_parse_as p in
      let parse_as := if seqb a "" then o_parse_as O else a in
      x <- find_lockfiles path parse_as ;
      y <- find_all_loop ps ;
      ret (map (fun q => parse_as +s+ ":" +s+ clean q) (fst x) ++ fst y, snd x || snd y)
  end.
(** main.go:278-306 findAllLockfiles *)
Definition find_all_lockfiles : M (list string * bool) :=
  if seqb (o_parse_as O) parse_as_csv_row then ret ([parse_as_csv_row +s+ ":-"], false)
  else find_all_loop (o_args O).

(** ** reading lockfiles *)
(** main.go:308-337 parseLockfile *)
Definition parse_lockfile (path_to_lock : string) : res (Lockfile * option any_err) :=
  let '(parse_as, path) := split_parse_as path_to_lock in
  if seqb parse_as parse_as_csv_row then
    let '(l, e) := from_csv_rows (e_sort E) path parse_as (o_args O) in Ok (l, option_map ACsvRows e)
  else if seqb parse_as parse_as_csv_file then
    let '(l, e) := from_csv_file (e_sort E) (e_csv E path) path parse_as in Ok (l, option_map ACsvFile e)
  else
    rbind (Lockfile.parse (e_sort E) (e_impl E) path parse_as) (fun '(l, e) => Ok (l, option_map AParse e)).

(** main.go:351-355 lockfileAndConfigOrErr; the config is a position in [s_heap] *)
Record LFile := mkLFile { l_lock : Lockfile; l_cfg : nat; l_err : option any_err }.

(** configer.Load / Find with the errors they print (load.go:85-95); the paths
    read are recorded *)
Definition report_db_errs (path : string) (errs : list db_cfg_err) : M unit :=
  each (fun e => print_error (path +s+ " contains an invalid database: " +s+ e_text E (ADbConfig path e) +s+ newline)) errs.
Definition load_cfg (path : string) : M (cfg_err + Config) :=
  emit (EReadConfig (clean path)) ;;
  fs <- get s_files ;
  match load_config (w_parse_uri (e_world E)) (e_dec_yaml E) fs path with
  | inl e => ret (inl e)
  | inr (c, errs) => report_db_errs (cf_path c) errs ;; ret (inr c)
  end.
(** load.go:101-131 Find *)
Definition find_cfg (dir : string) : M (cfg_err + Config) :=
  x <- load_cfg (dir +s+ "/" +s+ ".osv-detector" +s+ ".yml") ;
  match x with
  | inl (CNotExist _) =>
      y <- load_cfg (dir +s+ "/" +s+ ".osv-detector" +s+ ".yaml") ;
      match y with
      | inl (CNotExist _) => ret (inr empty_config)
      | _ => ret y
      end
  | _ => ret x
  end.

Definition alloc (c : Config) : M nat :=
  h <- get s_heap ; set_heap (h ++ [c]) ;; ret (List.length h).
Definition load_at (i : nat) : M Config := h <- get s_heap ; ret (nth i h empty_config).
(** main.go:422-465 readAllLockfiles; [config] is the current pointer *)
Fixpoint read_all (paths : list string) (check_local : bool) (config : nat) : M (list LFile) :=
  match paths with
  | [] => ret []
  | p :: ps =>
      let path := snd (split_parse_as p) in
      let finish config :=
        x <- lift (parse_lockfile p) ;
        rest <- read_all ps check_local config ;
        ret (mkLFile (fst x) config (snd x) :: rest) in
      if check_local then
        x <- find_cfg (path_dir path) ;
        match x with
        | inl e =>
            rest <- read_all ps check_local config ;
            ret (mkLFile empty_lockfile config (Some (AConfig e)) :: rest)
        | inr con => config <- alloc con ; finish config
        end
      else
        c <- load_at config ;
        if negb (seqb (cf_path c) "") then config <- alloc c ; finish config
        else finish config
  end.

(** main.go:467-497 collectEcosystems *)
Definition collect_ecosystems (files : list LFile) : list string :=
  fold_left (fun acc f => match l_err f with
                          | Some _ => acc
                          | None => fold_left (fun acc e => set_add e acc)
                                      (ecosystems (e_sort E) (e_iter E) (lf_pkgs (l_lock f))) acc
                          end) files [].
(** main.go:373-406 adjustExtraDatabases, one file *)
Definition adjust_one (f : LFile) : M unit :=
  match l_err f with
  | Some _ => ret tt
  | None =>
      h <- get s_heap ;
      let c := nth (l_cfg f) h empty_config in
      let own := if o_no_dbs O then [] else cf_dbs c in
      let extra := (if o_use_api O then [api_config] else [])
                   ++ (if o_use_dbs O then map ecosystem_config (collect_ecosystems [f]) else []) in
      set_heap (upd h (l_cfg f) (mkCfg (cf_path c) (cf_ignore c) (unique_db_configs [own; extra])))
  end.
Definition adjust_all (files : list LFile) : M unit := each adjust_one files.
(** main.go:359-371 getConfigs *)
Definition get_configs (h : list Config) (files : list LFile) : list Config :=
  flat_map (fun f => match l_err f with Some _ => [] | None => [nth (l_cfg f) h empty_config] end) files.
(** main.go:600-609 the names of all packages *)
Definition all_names (files : list LFile) : list string :=
  e_iter E _ (fold_left (fun s p => set_add (p_name p) s) (flat_map (fun f => lf_pkgs (l_lock f)) files) []).

(** ** checking *)
(** main.go:711-725: the IDs seen per config *)
Definition seen_ids (r : Report) : list string :=
  flat_map (fun p => map o_id (unique (pv_vulns p)) ++ map o_id (unique (pv_ignored p))) (rp_pkgs r).
Definition add_seen (path : string) (ids : list string) (m : list (string * list string)) : list (string * list string) :=
  let old := match map_get path m with Some s => s | None => [] end in
  map_set path (fold_left (fun s i => set_add i s) ids old) m.

(** main.go:626-730 the loop: exit code and IDs per config *)
Fixpoint check_files (files : list LFile) (k : nat) (exit : Z) (seen : list (string * list string))
  : M (Z * list (string * list string)) :=
  match files with
  | [] => ret (exit, seen)
  | f :: fs =>
      (if Nat.leb 1 k then print_text newline else ret tt) ;;
      match l_err f with
      | Some e =>
          print_error ("Error, " +s+ e_text E e +s+ newline) ;;
          check_files fs (k + 1) 127%Z seen
      | None =>
          let lockf := l_lock f in
          h <- get s_heap ;
          let c := nth (l_cfg f) h empty_config in
          let c := if o_no_ignores O then mkCfg (cf_path c) [] (cf_dbs c) else c in
          set_heap (upd h (l_cfg f) c) ;;
          print_text (e_col E "magenta" (lf_path lockf) +s+ ": found " +s+ e_col E "yellow" (dec_of_nat (List.length (lf_pkgs lockf)))
                      +s+ " " +s+ form (List.length (lf_pkgs lockf)) "package" "packages" +s+ newline) ;;
          if o_list_pkgs O then
            print_result (RLock lockf) ;; check_files fs (k + 1) exit seen
          else
            (if negb (seqb (cf_path c) "") then
               print_text ("  Using config at " +s+ e_col E "magenta" (cf_path c) +s+ " ("
                 +s+ (if o_no_ignores O then "skipping any ignores"
                      else e_col E "yellow" (dec_of_nat (List.length (cf_ignore c)) +s+ " "
                             +s+ form (List.length (cf_ignore c)) "ignore" "ignores"))
                 +s+ ")" +s+ newline)
             else ret tt) ;;
            let ignores := (if negb (seqb (cf_path c) "") && negb (o_no_ignores O) then cf_ignore c else []) ++ o_ignores O in
            dbs <- get s_dbs ;
            let use := for_configs dbs (cf_dbs c) in
            each (fun i => match nth_error dbs i with
                           | Some d => print_text ("  Using db " +s+ e_col E "hicyan" (db_name d) +s+ db_desc d +s+ newline)
                           | None => ret tt end) use ;;
            print_text newline ;;
            x <- check_lockfile k use lockf ignores ;
            let report := snd x in
            emit (ECheck (cf_path c) (flat_map (fun i => match nth_error dbs i with Some d => [db_ident d] | None => [] end) use)
                         ignores (fst x) report) ;;
            print_result (RReport report) ;;
            let seen := if o_update O && negb (seqb (cf_path c) "") then add_seen (cf_path c) (seen_ids report) seen else seen in
            let exit := if has_known report && Z.eqb exit 0 then 1%Z else exit in
            check_files fs (k + 1) exit seen
      end
  end.

(** main.go:750-770 one config; the line to print *)
Definition update_one (entry : string * list string) : M string :=
  let '(path, vulns) := entry in
  let ignores := e_sort E _ str_ltb (e_iter E _ vulns) in
  fs <- get s_files ;
  emit (EReadConfig (clean path)) ;;
  match update_with_ignores (e_dec_yaml E) (e_enc_yaml E) fs (e_openable E) path ignores with
  | inr content =>
      emit (EWriteConfig path content) ;;
      set_files (fun p => if seqb p (clean path) then FOk content else fs p) ;;
      ret ("Updated " +s+ e_col E "magenta" path +s+ " with " +s+ dec_of_nat (List.length vulns) +s+ " "
           +s+ form (List.length vulns) "vulnerability" "vulnerabilities" +s+ newline)
  | inl e => ret ("Error updating config: " +s+ e_text E (AUpdate e))
  end.
Fixpoint update_all (l : list (string * list string)) : M (list string) :=
  match l with
  | [] => ret []
  | x :: l' => line <- update_one x ; rest <- update_all l' ; ret (line :: rest)
  end.
(** main.go:743-781 writeUpdatedConfigs *)
Definition write_updated_configs (seen : list (string * list string)) : M unit :=
  (if negb (Nat.eqb (List.length seen) 0) then print_text newline else ret tt) ;;
  lines <- update_all (e_iter E _ seen) ;
  each (fun line => if has_prefix line "Error updating" then print_error line else print_text line)
       (e_sort E _ str_ltb lines).

(** ** run *)
(** main.go:596-740 everything after the global config is settled *)
Definition run_files (paths : list string) (check_local : bool) (config : nat) : M Z :=
  files <- read_all paths check_local config ;
  adjust_all files ;;
  h <- get s_heap ;
  x <- load_databases (unique_db_configs (map cf_dbs (get_configs h files))) (all_names files) ;
  set_dbs (fst x) ;;
  y <- check_files files 0 (if snd x : bool then 127%Z else 0%Z) [] ;
  (if o_update O then write_updated_configs (snd y) else ret tt) ;;
  errored <- get s_errored ;
  ret (if errored && Z.eqb (fst y) 0 then 127%Z else fst y).
(** main.go:575-596 the global config *)
Definition run_config (paths : list string) : M Z :=
  let load_local := negb (o_no_config O) in
  if o_list_pkgs O then
    config <- alloc empty_config ; run_files paths false config
  else if load_local && negb (seqb (o_config O) "") then
    x <- load_cfg (o_config O) ;
    match x with
    | inl e => print_error ("Error, " +s+ e_text E (AConfig e) +s+ newline) ;; ret 127%Z
    | inr con => config <- alloc con ; run_files paths false config
    end
  else config <- alloc empty_config ; run_files paths load_local config.
(** main.go:529-573 *)
Definition known_parse_as (a : string) : bool :=
  seqb a "" || seqb a parse_as_csv_file || seqb a parse_as_csv_row
  || match fst (find_parser "" a) with Some _ => true | None => false end.
Definition run_body : M Z :=
  if o_version O then print_text (e_version_line E) ;; ret 0%Z
  else if o_list_eco O then print_known_ecosystems ;; ret 0%Z
  else if negb (known_parse_as (o_parse_as O)) then
    print_error ("Don't know how to parse files as """ +s+ o_parse_as O +s+ """ - supported values are:" +s+ newline) ;;
    each (fun s => print_error ("  " +s+ s +s+ newline)) (list_parsers (e_sort E) (e_iter E)) ;;
    print_error ("  " +s+ parse_as_csv_file +s+ newline) ;;
    print_error ("  " +s+ parse_as_csv_row +s+ newline) ;;
    ret 127%Z
  else
    x <- find_all_lockfiles ;
    if Nat.eqb (List.length (fst x)) 0 then
      print_error ("You must provide at least one path to either a lockfile or a directory containing at least one lockfile (see --help for usage and flags)" +s+ newline) ;;
      ret (if Nat.ltb 0 (List.length (o_args O)) && negb (snd x) then 128%Z else 127%Z)
    else run_config (fst x).
(** main.go:499-741 run; the deferred call also happens on a panic *)
Definition run : M Z := fun s =>
  let '(r, s1) := run_body s in
  if o_json O then let '(_, s2) := print_json_results s1 in (r, s2) else (r, s1).
End Run.

(** the state a process starts in *)
Definition start (fs : string -> fread) (cache : files) : St := mkSt [] false [] [] [] fs cache.
