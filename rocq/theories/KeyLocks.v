(** pkg/lockfile/parse-{nuget-lock,pipenv-lock,bun-lock}.go *)
From Verif Require Import GoStr Types Json JsonDec MemDB GoMap Scan Ecosystems LockIO.

(** parse-npm-lock.go:44-51 mergePkgDetailsMap: maps.Copy ranges over a map *)
Definition copy_map (it : Iter) (dst src : list (string * Pkg)) : list (string * Pkg) :=
  fold_left (fun m '(k, v) => map_set k v m) (it _ src) dst.
Definition merge_pkg_details (it : Iter) (m1 m2 : list (string * Pkg)) : list (string * Pkg) :=
  copy_map it (copy_map it [] m1) m2.

Section WithEnv.
Variable it : Iter.
Variable files : string -> txt.

(** parse-nuget-lock.go:10-19: NuGetLockPackage is its Resolved *)
Definition NuGetDeps := option (list (string * string)).
Definition dec_nuget_package : json -> option string :=
  dec_struct (fun k v s => if seqb k "resolved" then dec_string v s else Some s) "".
Definition dec_nuget : json -> option (Z * option (list (string * NuGetDeps))) :=
  dec_struct (fun k v '(ver, m) =>
    if seqb k "version" then option_map (fun z => (z, m)) (dec_int v ver)
    else if seqb k "dependencies" then option_map (fun m => (ver, m)) (dec_map (dec_map dec_nuget_package) v)
    else Some (ver, m)) (0%Z, None).
(** parse-nuget-lock.go:23-36 parseNuGetLockDependencies *)
Definition parse_nuget_dependencies (dependencies : list (string * string)) : list (string * Pkg) :=
  fold_left (fun m '(name, resolved) => map_set (name +s+ "@" +s+ resolved) (mkPkg name resolved "" NuGetEcosystem NuGetEcosystem) m)
    (it _ dependencies) [].
(** parse-nuget-lock.go:38-49 parseNuGetLock *)
Definition parse_nuget (lockfile : list (string * NuGetDeps)) : list Pkg :=
  map_to_slice it
    (fold_left (fun details '(_, deps) => merge_pkg_details it details (parse_nuget_dependencies (map_entries deps))) (it _ lockfile) []).
(** parse-nuget-lock.go:53-73 ParseNuGetLock *)
Definition parse_nuget_lock (path : string) : pres :=
  decoded files (json_pointer dec_nuget) path (fun p => deref p (fun '(version, m) =>
    if negb (Z.eqb version 1) then fails_with (FVersion path)
    else packages_of (parse_nuget (map_entries m)))).

(** parse-pipenv-lock.go:9-16: PipenvPackage is its Version *)
Definition dec_pipenv_package : json -> option string :=
  dec_struct (fun k v s => if seqb k "version" then dec_string v s else Some s) "".
Definition PipenvMap := option (list (string * string)).
Definition dec_pipenv : json -> option (PipenvMap * PipenvMap) :=
  dec_struct (fun k v '(a, b) =>
    if seqb k "default" then option_map (fun m => (m, b)) (dec_map dec_pipenv_package v)
    else if seqb k "develop" then option_map (fun m => (a, m)) (dec_map dec_pipenv_package v)
    else Some (a, b)) (None, None).
(** s[2:] *)
Definition slice2 (s : string) : res string := match s with String _ (String _ r) => Ok r | _ => Panic end.
(** parse-pipenv-lock.go:37-50, 52-65: the loop over one map *)
Definition pipenv_loop (l : list (string * string)) (packages : list (string * Pkg)) : res (list (string * Pkg)) :=
  fold_left (fun acc '(name, v) =>
    rbind acc (fun m =>
      if seqb v "" then Ok m
      else rbind (slice2 v) (fun version =>
        Ok (map_set (name +s+ "@" +s+ version) (mkPkg name version "" PipEcosystem PipEcosystem) m)))) l (Ok packages).
Definition parse_pipenv (default develop : list (string * string)) : pres :=
  rbind (pipenv_loop (it _ default) []) (fun m =>
  rbind (pipenv_loop (it _ develop) m) (fun m =>
  packages_of (map_to_slice it m))).
(** parse-pipenv-lock.go:20-68 ParsePipenvLock *)
Definition parse_pipenv_lock (path : string) : pres :=
  decoded files (json_pointer dec_pipenv) path (fun p => deref p (fun '(a, b) => parse_pipenv (map_entries a) (map_entries b))).

(** parse-bun-lock.go:12-15: the tuples of packages *)
Definition dec_tuple (v : json) : option (list json) := dec_list (fun x => if any_ok x then Some x else None) v.
Definition dec_bun : json -> option (option (list (string * list json))) :=
  fun j => option_map snd
    (dec_struct (fun k v '(ver, m) =>
      if seqb k "lockfileversion" then option_map (fun z => (z, m)) (dec_int v ver)
      else if seqb k "packages" then option_map (fun m => (ver, m)) (dec_map dec_tuple v)
      else Some (ver, m)) (0%Z, None) j).
(** parse-bun-lock.go:21-49 structurePackageDetails *)
Definition structure_package_details (pkg : list json) : res (string * string * string) :=
  match pkg with
  | [] => Panic
  | JStr str :: _ =>
      let '(str, is_scoped) := cut_prefix str "@" in
      let '(name, version, _) := cut str "@" in
      let name := if is_scoped then "@" +s+ name else name in
      let '(version, commit, _) := cut version "#" in
      let version := if negb (seqb commit "") then "" else version in
      let version := if has_prefix version "file:" then "" else version in
      Ok (name, version, commit)
  | _ => Ok ("", "", "")
  end.
(** parse-bun-lock.go:66-82 *)
Fixpoint bun_packages (l : list (string * list json)) : res (list Pkg) :=
  match l with
  | [] => Ok []
  | (_, pkg) :: l' =>
      rbind (structure_package_details pkg) (fun '(name, version, commit) =>
        rbind (bun_packages l') (fun ps =>
          Ok (if seqb name "" && seqb version "" && seqb commit "" then ps
              else mkPkg name version commit NpmEcosystem NpmEcosystem :: ps)))
  end.
(** parse-bun-lock.go:51-85 ParseBunLock; [jsonc]: jsonc.ToJSON (a library) *)
Definition parse_bun_lock (jsonc : string -> string) (path : string) : pres :=
  decoded files (fun content => json_pointer dec_bun (jsonc content)) path (fun p => deref p (fun m =>
    rbind (bun_packages (it _ (map_entries m))) packages_of)).
End WithEnv.
