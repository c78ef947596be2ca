(** main.go's run (Main.v) together with what databases and parsers write to
    os.Stderr themselves (Warnings.v, Parsers.v): the functions that call them,
    once more, with these notices in their places. *)
From Verif Require Import GoStr GoSort GoMap Types Osv MemDB Path Api ZipDB DirDB DbConfig Configer Lockfile Csv Report Main Warnings.

(** a step of a run, or a notice *)
Inductive out := Did (e : ev) | Note (text : string).
(** what the parsers say, the texts of errors of json.Unmarshal (by content) and
    of opening or reading (by name), of writing a cache (by path; None: it is
    written) and of json.Marshal (by advisory; None: it can be printed) *)
Record Voice := mkVoice {
  v_parser : ParserFn -> string -> list string;
  v_json_err : string -> string;
  v_read_err : string -> string;
  v_write_err : string -> option string;
  v_osv_err : OSV -> option string }.

Definition W (A : Type) := St -> res A * St * list out.
(** a part of Main.v that gives no notices *)
Definition up {A} (m : M A) : W A := fun s =>
  let '(r, s') := m s in (r, s', map Did (skipn (List.length (s_trace s)) (s_trace s'))).
Definition notes (l : list string) : W unit := fun s => (Ok tt, s, map Note l).
Definition wbind {A B} (m : W A) (f : A -> W B) : W B := fun s =>
  match m s with
  | (Ok a, s1, o1) => let '(r, s2, o2) := f a s1 in (r, s2, o1 ++ o2)
  | (Panic, s1, o1) => (Panic, s1, o1)
  end.
Definition wret {A} (a : A) : W A := up (ret a).
Local Notation "x <+ m ; f" := (wbind m (fun x => f)) (at level 61, m at next level, right associativity).
Local Notation "m ;+ f" := (wbind m (fun _ => f)) (at level 61, right associativity).

(** mem-check.go:55-69, with osv.go:284-313 *)
Section Check.
Variable S : Sorter.
Fixpoint bucket_says (sem : Semantic) (pkg : Pkg) (h : list OSV) (addrs : list nat) : list string :=
  match addrs with
  | [] => []
  | i :: addrs' =>
      let v := deref h i in
      match o_withdrawn v with
      | Some _ => bucket_says sem pkg h addrs'
      | None => is_affected_says S sem v pkg
                ++ match is_affected S sem v pkg with
                   | Ok (_, v') => bucket_says sem pkg (heap_set h i v') addrs'
                   | Panic => []
                   end
      end
  end.
Definition affecting_says (sem : Semantic) (db : memDB) (pkg : Pkg) : list string :=
  match map_get (p_eco pkg +s+ "-" +s+ p_name pkg) (m_vulns db) with
  | Some addrs => bucket_says sem pkg (m_heap db) addrs
  | None => []
  end.
(** mem-check.go:71-79 *)
Fixpoint check_says (sem : Semantic) (db : memDB) (pkgs : list Pkg) : list string :=
  match pkgs with
  | [] => []
  | p :: pkgs' => affecting_says sem db p
                  ++ match vulnerabilities_affecting S sem db p with Ok (_, db1) => check_says sem db1 pkgs' | Panic => [] end
  end.
End Check.

Section Run.
Variable E : Env.
Variable V : Voice.
Variable O : Opts.

(** main.go:308-337 parseLockfile *)
Definition parse_says (path_to_lock : string) : list string :=
  let '(parse_as, path) := split_parse_as path_to_lock in
  if seqb parse_as parse_as_csv_row || seqb parse_as parse_as_csv_file then []
  else match fst (find_parser path parse_as) with Some f => v_parser V f path | None => [] end.
(** main.go:422-465 readAllLockfiles *)
Fixpoint read_all_full (paths : list string) (check_local : bool) (config : nat) : W (list LFile) :=
  match paths with
  | [] => wret []
  | p :: ps =>
      let path := snd (split_parse_as p) in
      let finish config :=
        notes (parse_says p) ;+
        x <+ up (lift (parse_lockfile E O p)) ;
        rest <+ read_all_full ps check_local config ;
        wret (mkLFile (fst x) config (snd x) :: rest) in
      if check_local then
        x <+ up (find_cfg E (path_dir path)) ;
        match x with
        | inl e =>
            rest <+ read_all_full ps check_local config ;
            wret (mkLFile empty_lockfile config (Some (AConfig e)) :: rest)
        | inr con => config <+ up (alloc con) ; finish config
        end
      else
        c <+ up (load_at config) ;
        if negb (seqb (cf_path c) "") then config <+ up (alloc c) ; finish config
        else finish config
  end.

(** what a load says before and after its request (zip.go:51-128, dir.go) *)
Definition load_says_first (c : DBConfig) (file : option string) : list string :=
  if seqb (dc_type c) "zip" then cache_says (v_json_err V) (e_cache_path E (dc_url c)) file else [].
Definition load_says_then (c : DBConfig) (file : option string) : list string :=
  if seqb (dc_type c) "zip" then
    let f := fetch_zip (dc_url c) (o_offline O) file (w_answer (e_world E)) in
    let path := e_cache_path E (dc_url c) in
    write_says (v_write_err V path) path (f_write f)
    ++ match f_result f with
       | Ok (inr (body, _)) =>
           match w_unzip (e_world E) body with
           | Some entries => flat_map (zip_entry_says (v_json_err V) (v_read_err V) (w_dec_osv (e_world E)) (dc_wd c)) entries
           | None => []
           end
       | _ => []
       end
  else if seqb (dc_type c) "api" then []
  else if seqb (dc_type c) "dir" then
    dir_load_says (v_json_err V) (v_read_err V) (w_dec_osv (e_world E)) (w_parse_uri (e_world E)) (w_tree (e_world E)) (dc_url c) (dc_wd c)
  else [].
(** main.go:206-227; a cache that cannot be written stays as it is *)
Fixpoint load_loop_full (configs : list DBConfig) (names : list string) : W (list DB * bool) :=
  match configs with
  | [] => wret ([], false)
  | c :: configs' =>
      up (print_text O ("  " +s+ dc_name c)) ;+
      up (emit (ELoad c)) ;+
      cache <+ up (get s_cache) ;
      let path := e_cache_path E (dc_url c) in
      let '(r, w, reqs) := load_db (e_world E) (cache path) c (o_offline O) (o_batch O) names in
      notes (load_says_first c (cache path)) ;+
      up (each (fun q => emit (EZip q)) reqs) ;+
      up (set_cache (match w, v_write_err V path with Some content, None => file_set cache path (Some content) | _, _ => cache end)) ;+
      notes (load_says_then c (cache path)) ;+
      x <+ up (lift r) ;
      match x with
      | inl e =>
          up (emit (ELoadFailed c e)) ;+
          up (print_load_err E e) ;+
          y <+ load_loop_full configs' names ; wret (fst y, true)
      | inr db =>
          up (print_text O (db_desc E db +s+ newline)) ;+
          y <+ load_loop_full configs' names ; wret (db :: fst y, snd y)
      end
  end.
(** main.go:186-232 *)
Definition load_databases_full (configs : list DBConfig) (names : list string) : W (list DB * bool) :=
  if o_list_pkgs O then wret ([], false)
  else
    up (print_text O ("Loaded the following OSV databases:" +s+ newline)) ;+
    r <+ load_loop_full configs names ;
    up (print_text O newline) ;+
    wret r.

(** main.go:90-104 *)
Definition db_says (d : DB) (pkgs : list Pkg) : list string :=
  match d with
  | ZipD _ _ db _ | DirD _ _ db => check_says (e_sort E) (e_sem E) db pkgs
  | ApiD _ => []
  end.
Fixpoint check_dbs_full (k : nat) (dbs : list nat) (lockf : Lockfile) : W (list (list (list OSV))) :=
  match dbs with
  | [] => wret []
  | i :: dbs' =>
      ds <+ up (get s_dbs) ;
      match nth_error ds i with
      | None => up (lift Panic)
      | Some d =>
          up (match d with ApiD a => emit (EApi a (lf_pkgs lockf)) | _ => ret tt end) ;+
          notes (db_says d (lf_pkgs lockf)) ;+
          x <+ up (lift (check_db E k d (lf_pkgs lockf))) ;
          let '(r, d') := x in
          up (set_dbs (upd ds i d')) ;+
          match r with
          | inl e =>
              up (print_error (e_col E "red" ("  an api error occurred while trying to check the packages listed in "
                           +s+ lf_path lockf +s+ ": " +s+ e_text E (AApi e) +s+ newline))) ;+
              check_dbs_full k dbs' lockf
          | inr results => rest <+ check_dbs_full k dbs' lockf ; wret (results :: rest)
          end
      end
  end.
(** main.go:82-114 *)
Definition check_lockfile_full (k : nat) (dbs : list nat) (lockf : Lockfile) (ignores : list string)
  : W (list (list (list OSV)) * Report) :=
  vulns <+ check_dbs_full k dbs lockf ;
  pkgs <+ up (lift (transpose_all (lf_pkgs lockf) ignores 0 vulns)) ;
  wret (vulns, mkRep lockf pkgs).
(** main.go:626-730 *)
Fixpoint check_files_full (files : list LFile) (k : nat) (exit : Z) (seen : list (string * list string))
  : W (Z * list (string * list string)) :=
  match files with
  | [] => wret (exit, seen)
  | f :: fs =>
      up (if Nat.leb 1 k then print_text O newline else ret tt) ;+
      match l_err f with
      | Some e =>
          up (print_error ("Error, " +s+ e_text E e +s+ newline)) ;+
          check_files_full fs (k + 1) 127%Z seen
      | None =>
          let lockf := l_lock f in
          h <+ up (get s_heap) ;
          let c := nth (l_cfg f) h empty_config in
          let c := if o_no_ignores O then mkCfg (cf_path c) [] (cf_dbs c) else c in
          up (set_heap (upd h (l_cfg f) c)) ;+
          up (print_text O (e_col E "magenta" (lf_path lockf) +s+ ": found " +s+ e_col E "yellow" (dec_of_nat (List.length (lf_pkgs lockf)))
                      +s+ " " +s+ form (List.length (lf_pkgs lockf)) "package" "packages" +s+ newline)) ;+
          if o_list_pkgs O then
            up (print_result E O (RLock lockf)) ;+ check_files_full fs (k + 1) exit seen
          else
            up (if negb (seqb (cf_path c) "") then
               print_text O ("  Using config at " +s+ e_col E "magenta" (cf_path c) +s+ " ("
                 +s+ (if o_no_ignores O then "skipping any ignores"
                      else e_col E "yellow" (dec_of_nat (List.length (cf_ignore c)) +s+ " "
                             +s+ form (List.length (cf_ignore c)) "ignore" "ignores"))
                 +s+ ")" +s+ newline)
             else ret tt) ;+
            let ignores := (if negb (seqb (cf_path c) "") && negb (o_no_ignores O) then cf_ignore c else []) ++ o_ignores O in
            dbs <+ up (get s_dbs) ;
            let use := for_configs dbs (cf_dbs c) in
            up (each (fun i => match nth_error dbs i with
                           | Some d => print_text O ("  Using db " +s+ e_col E "hicyan" (db_name d) +s+ db_desc E d +s+ newline)
                           | None => ret tt end) use) ;+
            up (print_text O newline) ;+
            x <+ check_lockfile_full k use lockf ignores ;
            let report := snd x in
            up (emit (ECheck (cf_path c) (flat_map (fun i => match nth_error dbs i with Some d => [db_ident d] | None => [] end) use)
                         ignores (fst x) report)) ;+
            up (print_result E O (RReport report)) ;+
            let seen := if o_update O && negb (seqb (cf_path c) "") then add_seen (cf_path c) (seen_ids report) seen else seen in
            let exit := if has_known report && Z.eqb exit 0 then 1%Z else exit in
            check_files_full fs (k + 1) exit seen
      end
  end.

(** main.go:596-740 *)
Definition run_files_full (paths : list string) (check_local : bool) (config : nat) : W Z :=
  files <+ read_all_full paths check_local config ;
  up (adjust_all E O files) ;+
  h <+ up (get s_heap) ;
  x <+ load_databases_full (unique_db_configs (map cf_dbs (get_configs h files))) (all_names E files) ;
  up (set_dbs (fst x)) ;+
  y <+ check_files_full files 0 (if snd x : bool then 127%Z else 0%Z) [] ;
  up (if o_update O then write_updated_configs E O (snd y) else ret tt) ;+
  errored <+ up (get s_errored) ;
  wret (if errored && Z.eqb (fst y) 0 then 127%Z else fst y).
(** main.go:575-596 *)
Definition run_config_full (paths : list string) : W Z :=
  let load_local := negb (o_no_config O) in
  if o_list_pkgs O then
    config <+ up (alloc empty_config) ; run_files_full paths false config
  else if load_local && negb (seqb (o_config O) "") then
    x <+ up (load_cfg E (o_config O)) ;
    match x with
    | inl e => up (print_error ("Error, " +s+ e_text E (AConfig e) +s+ newline)) ;+ wret 127%Z
    | inr con => config <+ up (alloc con) ; run_files_full paths false config
    end
  else config <+ up (alloc empty_config) ; run_files_full paths load_local config.
(** main.go:529-573 *)
Definition run_body_full : W Z :=
  if o_version O then up (print_text O (e_version_line E)) ;+ wret 0%Z
  else if o_list_eco O then up (print_known_ecosystems O) ;+ wret 0%Z
  else if negb (known_parse_as (o_parse_as O)) then
    up (print_error ("Don't know how to parse files as """ +s+ o_parse_as O +s+ """ - supported values are:" +s+ newline)) ;+
    up (each (fun s => print_error ("  " +s+ s +s+ newline)) (list_parsers (e_sort E) (e_iter E))) ;+
    up (print_error ("  " +s+ parse_as_csv_file +s+ newline)) ;+
    up (print_error ("  " +s+ parse_as_csv_row +s+ newline)) ;+
    wret 127%Z
  else
    x <+ up (find_all_lockfiles E O) ;
    if Nat.eqb (List.length (fst x)) 0 then
      up (print_error ("You must provide at least one path to either a lockfile or a directory containing at least one lockfile (see --help for usage and flags)" +s+ newline)) ;+
      wret (if Nat.ltb 0 (List.length (o_args O)) && negb (snd x) then 128%Z else 127%Z)
    else run_config_full (fst x).
(** reporter.go:75-87 PrintJSONResults; json.Marshal goes through the results in
    order and gives up at the first advisory it cannot print *)
Definition result_osvs (r : Result) : list OSV :=
  match r with RLock _ => [] | RReport rp => flat_map (fun p => pv_vulns p ++ pv_ignored p) (rp_pkgs rp) end.
Fixpoint marshal_err (l : list OSV) : option string :=
  match l with
  | [] => None
  | v :: l' => match v_osv_err V v with Some err => Some err | None => marshal_err l' end
  end.
Definition print_json_results_full : M unit :=
  bind (get s_results) (fun rs =>
  match marshal_err (flat_map result_osvs rs) with
  | Some err => print_error ("an error occurred when printing results as JSON: " +s+ err)
  | None => print_json_results E
  end).
(** main.go:499-741 run; the result is settled before the deferred print *)
Definition run_full : W Z := fun s =>
  let '(r, s1, o1) := run_body_full s in
  if o_json O then let '(_, s2, o2) := up print_json_results_full s1 in (r, s2, o1 ++ o2) else (r, s1, o1).
End Run.
