(** pkg/lockfile/parse-go-lock.go *)
From Verif Require Import GoStr Types MemDB GoMap Scan Ecosystems LockIO.
Local Open Scope string_scope.

(** golang.org/x/mod's module.Version, and what is used of modfile.File *)
Record Module := mkModule { mod_path : string; mod_version : string }.
Record Replace := mkReplace { rp_old : Module; rp_new : Module }.
Record GoMod := mkGoMod { gm_require : list Module; gm_replace : list Replace }.

Section WithEnv.
Variable it : Iter.
Variable files : string -> txt.
(** modfile.Parse *)
Variable modfile : string -> string -> option GoMod.

(** parse-go-lock.go:13-21 deduplicatePackages *)
Definition deduplicate_packages (packages : list (string * Pkg)) : list (string * Pkg) :=
  fold_left (fun details '(_, detail) => map_set (p_name detail +s+ "@" +s+ p_version detail) detail details) (it _ packages) [].
Definition go_pkg (m : Module) : Pkg := mkPkg (mod_path m) (trim_prefix (mod_version m) "v") "" GoEcosystem GoEcosystem.
(** parse-go-lock.go:38-45 *)
Definition go_required (l : list Module) : list (string * Pkg) :=
  fold_left (fun packages r => map_set (mod_path r +s+ "@" +s+ mod_version r) (go_pkg r) packages) l [].
(** parse-go-lock.go:48-67 *)
Definition replacements (r : Replace) (packages : list (string * Pkg)) : list string :=
  if seqb (mod_version (rp_old r)) "" then
    map fst (filter (fun '(_, pkg) => seqb (p_name pkg) (mod_path (rp_old r))) (it _ packages))
  else
    let s := mod_path (rp_old r) +s+ "@" +s+ mod_version (rp_old r) in
    match map_get s packages with Some _ => [s] | None => [] end.
(** parse-go-lock.go:47-77 *)
Definition go_replace (packages : list (string * Pkg)) (r : Replace) : list (string * Pkg) :=
  fold_left (fun m k => map_set k (go_pkg (rp_new r)) m) (replacements r packages) packages.
(** parse-go-lock.go:23-80 ParseGoLock *)
Definition parse_go_lock (path : string) : pres :=
  match read_file files path with
  | None => fails_with (FRead path)
  | Some content =>
      match modfile path content with
      | None => fails_with (FParse path)
      | Some f => packages_of (map_to_slice it (deduplicate_packages (fold_left go_replace (gm_replace f) (go_required (gm_require f)))))
      end
  end.
End WithEnv.
