(** pkg/lockfile/parse-npm-lock.go *)
From Verif Require Import GoStr Types Path Json JsonDec MemDB GoMap Scan Ecosystems LockIO KeyLocks Commit.

(** parse-npm-lock.go:12-15; None: a nil map *)
Inductive NpmDep := mkNpmDep (version : string) (dependencies : option (list (string * NpmDep))).
Definition nd_version (d : NpmDep) : string := let 'mkNpmDep v _ := d in v.
Definition nd_deps (d : NpmDep) : option (list (string * NpmDep)) := let 'mkNpmDep _ l := d in l.
(** parse-npm-lock.go:17-22, the fields used; Dependencies is decoded (which can
    fail) and not used *)
Record NpmPackage := mkNpmPackage { np_name : string; np_version : string; np_resolved : string }.
(** parse-npm-lock.go:24-30 *)
Record NpmLockfile := mkNpmLockfile { nl_version : Z; nl_deps : option (list (string * NpmDep)); nl_packages : option (list (string * NpmPackage)) }.

(** ** json.Unmarshal *)
Fixpoint dec_npm_dep (j : json) : option NpmDep :=
  dec_struct (fun k v d =>
    if seqb k "version" then option_map (fun s => mkNpmDep s (nd_deps d)) (dec_string v (nd_version d))
    else if seqb k "dependencies" then option_map (mkNpmDep (nd_version d)) (dec_map dec_npm_dep v)
    else Some d) (mkNpmDep "" None) j.
Definition dec_npm_package : json -> option NpmPackage :=
  dec_struct (fun k v p =>
    if seqb k "name" then option_map (fun s => mkNpmPackage s (np_version p) (np_resolved p)) (dec_string v (np_name p))
    else if seqb k "version" then option_map (fun s => mkNpmPackage (np_name p) s (np_resolved p)) (dec_string v (np_version p))
    else if seqb k "resolved" then option_map (fun s => mkNpmPackage (np_name p) (np_version p) s) (dec_string v (np_resolved p))
    else if seqb k "dependencies" then option_map (fun _ => p) (dec_map (fun v => dec_string v "") v)
    else Some p) (mkNpmPackage "" "" "").
Definition dec_npm : json -> option NpmLockfile :=
  dec_struct (fun k v l =>
    if seqb k "lockfileversion" then option_map (fun z => mkNpmLockfile z (nl_deps l) (nl_packages l)) (dec_int v (nl_version l))
    else if seqb k "dependencies" then option_map (fun m => mkNpmLockfile (nl_version l) m (nl_packages l)) (dec_map dec_npm_dep v)
    else if seqb k "packages" then option_map (fun m => mkNpmLockfile (nl_version l) (nl_deps l) m) (dec_map dec_npm_package v)
    else Some l) (mkNpmLockfile 0 None None).

Section WithEnv.
Variable it : Iter.
Variable files : string -> txt.
Variable url : string -> option Url.

(** parse-npm-lock.go:61-91: the key and package of one dependency.
    detail.Version[4:i] panics when there is no @ (i = -1) *)
Definition npm_entry (name v : string) : res (string * Pkg) :=
  if has_prefix v "file:" then Ok (name +s+ "@" +s+ v, mkPkg name "" "" NpmEcosystem NpmEcosystem)
  else
    rbind (if has_prefix v "npm:" then
             match cut_last "@" v with
             | None => Panic
             | Some (b, a) => Ok (str_skip 4 b, a)
             end
           else Ok (name, v)) (fun '(name, final) =>
      let commit := try_extract_commit url v in
      Ok (if negb (seqb commit "") then (name +s+ "@" +s+ commit, mkPkg name "" commit NpmEcosystem NpmEcosystem)
          else (name +s+ "@" +s+ v, mkPkg name final "" NpmEcosystem NpmEcosystem))).
(** parse-npm-lock.go:56-92: the loop; [nested]: what the recursive call gives,
    None for a nil map *)
Definition npm_loop (l : list (string * (string * option (res (list (string * Pkg)))))) : res (list (string * Pkg)) :=
  fold_left (fun acc '(name, (v, nested)) =>
    rbind acc (fun details =>
    rbind (match nested with None => Ok details | Some r => rbind r (fun m => Ok (merge_pkg_details it details m)) end) (fun details =>
    rbind (npm_entry name v) (fun '(k, p) => Ok (map_set k p details))))) l (Ok []).
(** parse-npm-lock.go:53-95 parseNpmLockDependencies *)
Fixpoint npm_nested (d : NpmDep) : string * option (res (list (string * Pkg))) :=
  let 'mkNpmDep v l := d in
  (v, option_map (fun l => npm_loop (it _ (map (fun nd => (fst nd, npm_nested (snd nd))) l))) l).
Definition parse_npm_dependencies (dependencies : list (string * NpmDep)) : res (list (string * Pkg)) :=
  npm_loop (it _ (map (fun nd => (fst nd, npm_nested (snd nd))) dependencies)).

(** parse-npm-lock.go:97-106 extractNpmPackageName *)
Definition extract_npm_package_name (name : string) : string :=
  let maybe_scope := path_base (path_dir name) in
  let pkg_name := path_base name in
  if has_prefix maybe_scope "@" then maybe_scope +s+ "/" +s+ pkg_name else pkg_name.
(** parse-npm-lock.go:116-139 *)
Definition npm_package (name_path : string) (detail : NpmPackage) : string * Pkg :=
  let final_name := if seqb (np_name detail) "" then extract_npm_package_name name_path else np_name detail in
  let commit := try_extract_commit url (np_resolved detail) in
  let final_version := if negb (seqb commit "") then commit else np_version detail in
  (final_name +s+ "@" +s+ final_version, mkPkg final_name (np_version detail) commit NpmEcosystem NpmEcosystem).
(** parse-npm-lock.go:108-143 parseNpmLockPackages *)
Definition parse_npm_packages (packages : list (string * NpmPackage)) : list (string * Pkg) :=
  fold_left (fun details '(name_path, detail) =>
    if seqb name_path "" then details
    else let '(k, p) := npm_package name_path detail in map_set k p details) (it _ packages) [].
(** parse-npm-lock.go:145-151 parseNpmLock *)
Definition parse_npm (lockfile : NpmLockfile) : res (list (string * Pkg)) :=
  match nl_packages lockfile with
  | Some packages => Ok (parse_npm_packages packages)
  | None => parse_npm_dependencies (map_entries (nl_deps lockfile))
  end.
(** parse-npm-lock.go:153-170 ParseNpmLock *)
Definition parse_npm_lock (path : string) : pres :=
  decoded files (json_pointer dec_npm) path (fun p => deref p (fun lockfile =>
    rbind (parse_npm lockfile) (fun m => packages_of (map_to_slice it m)))).
End WithEnv.
