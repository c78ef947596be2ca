(** pkg/lockfile/parse-{cargo-lock,composer-lock,pdm-lock,poetry-lock,
    pubspec-lock,pylock,renv-lock,uv-lock}.go.  The TOML and YAML decoders are
    parameters giving the decoded values. *)
From Verif Require Import GoStr Types Json JsonDec MemDB GoMap Scan Ecosystems LockIO.

Section WithEnv.
Variable it : Iter.
Variable files : string -> txt.

(** parse-cargo-lock.go:10-18, the fields used *)
Record CargoPackage := mkCargo { cg_name : string; cg_version : string }.
(** parse-cargo-lock.go:37-46 *)
Definition cargo_packages (l : list CargoPackage) : list Pkg :=
  map (fun p => mkPkg (cg_name p) (cg_version p) "" CargoEcosystem CargoEcosystem) l.
(** parse-cargo-lock.go:22-49 ParseCargoLock *)
Definition parse_cargo_lock (toml : string -> option (list CargoPackage)) (path : string) : pres :=
  decoded files toml path (fun l => packages_of (cargo_packages l)).

(** parse-composer-lock.go:10-21 *)
Record ComposerPackage := mkComposer { cm_name : string; cm_version : string; cm_ref : string }.
Definition dec_dist (v : json) (old : string) : option string :=
  dec_struct (fun k v s => if seqb k "reference" then dec_string v s else Some s) old v.
Definition dec_composer_package : json -> option ComposerPackage :=
  dec_struct (fun k v p =>
    if seqb k "name" then option_map (fun s => mkComposer s (cm_version p) (cm_ref p)) (dec_string v (cm_name p))
    else if seqb k "version" then option_map (fun s => mkComposer (cm_name p) s (cm_ref p)) (dec_string v (cm_version p))
    else if seqb k "dist" then option_map (fun s => mkComposer (cm_name p) (cm_version p) s) (dec_dist v (cm_ref p))
    else Some p) (mkComposer "" "" "").
Definition dec_composer : json -> option (list ComposerPackage * list ComposerPackage) :=
  dec_struct (fun k v '(a, b) =>
    if seqb k "packages" then option_map (fun l => (l, b)) (dec_list dec_composer_package v)
    else if seqb k "packages-dev" then option_map (fun l => (a, l)) (dec_list dec_composer_package v)
    else Some (a, b)) ([], []).
(** parse-composer-lock.go:25-34 extractCommit *)
Definition extract_commit (p : ComposerPackage) : string :=
  let commit := cm_ref p in if contains commit "." then "" else commit.
(** parse-composer-lock.go:58-76 *)
Definition composer_package (p : ComposerPackage) : Pkg :=
  mkPkg (cm_name p) (cm_version p) (extract_commit p) ComposerEcosystem ComposerEcosystem.
Definition composer_packages (a b : list ComposerPackage) : list Pkg := map composer_package a ++ map composer_package b.
(** parse-composer-lock.go:36-79 ParseComposerLock *)
Definition parse_composer_lock (path : string) : pres :=
  decoded files (json_pointer dec_composer) path (fun p => deref p (fun '(a, b) => packages_of (composer_packages a b))).

(** parse-pdm-lock.go:10-20 *)
Record PdmPackage := mkPdm { pd_name : string; pd_version : string; pd_revision : string }.
(** parse-pdm-lock.go:39-54 *)
Definition pdm_packages (l : list PdmPackage) : list Pkg :=
  map (fun p =>
    let details := mkPkg (pd_name p) (pd_version p) "" PipEcosystem PipEcosystem in
    if negb (seqb (pd_revision p) "") then mkPkg (p_name details) (p_version details) (pd_revision p) (p_eco details) (p_cmp details)
    else details) l.
(** parse-pdm-lock.go:24-57 ParsePdmLock *)
Definition parse_pdm_lock (toml : string -> option (list PdmPackage)) (path : string) : pres :=
  decoded files toml path (fun l => packages_of (pdm_packages l)).

(** parse-poetry-lock.go:10-24 *)
Record PoetryPackage := mkPoetry { po_name : string; po_version : string; po_commit : string }.
(** parse-poetry-lock.go:43-53 *)
Definition poetry_packages (l : list PoetryPackage) : list Pkg :=
  map (fun p => mkPkg (po_name p) (po_version p) (po_commit p) PipEcosystem PipEcosystem) l.
(** parse-poetry-lock.go:28-56 ParsePoetryLock *)
Definition parse_poetry_lock (toml : string -> option (list PoetryPackage)) (path : string) : pres :=
  decoded files toml path (fun l => packages_of (poetry_packages l)).

(** parse-pubspec-lock.go:10-15 *)
Record PubDescription := mkPubD { pb_dname : string; pb_url : string; pb_path : string; pb_ref : string }.
(** parse-pubspec-lock.go:17-47 UnmarshalYAML.  [as_struct]: the node decoded
    into the struct (None: error); [as_string]: into a *string (None: error,
    Some None: nil) *)
Definition unmarshal_description (as_struct : option PubDescription) (as_string : option (option string)) (old : PubDescription)
    : res (option PubDescription) :=
  match as_struct with
  | Some m => Ok (Some (mkPubD (pb_dname m) (pb_url m) (pb_path m) (pb_ref m)))
  | None =>
      match as_string with
      | None => Ok None
      | Some None => Panic
      | Some (Some s) => Ok (Some (mkPubD (pb_dname old) (pb_url old) s (pb_ref old)))
      end
  end.
(** parse-pubspec-lock.go:49-58 *)
Record PubPackage := mkPub { pb_version : string; pb_desc : PubDescription }.
(** parse-pubspec-lock.go:80-90 *)
Definition pubspec_packages (m : list (string * PubPackage)) : list Pkg :=
  map (fun '(name, p) => mkPkg name (pb_version p) (pb_ref (pb_desc p)) PubEcosystem PubEcosystem) (it _ m).
(** parse-pubspec-lock.go:62-93 ParsePubspecLock; the decoder gives nil for an
    empty document *)
Definition parse_pubspec_lock (yaml : string -> option (option (option (list (string * PubPackage))))) (path : string) : pres :=
  decoded files yaml path (fun p =>
    match p with
    | None => packages_of []
    | Some m => packages_of (pubspec_packages (map_entries m))
    end).

(** parse-pylock.go:10-29 *)
Record PylockPackage := mkPylock { py_name : string; py_version : string; py_commit : string; py_dir : string }.
(** parse-pylock.go:48-68 *)
Definition pylock_packages (l : list PylockPackage) : list Pkg :=
  flat_map (fun p =>
    if seqb (py_version p) "" && seqb (py_dir p) "." then []
    else
      let details := mkPkg (py_name p) (py_version p) "" PipEcosystem PipEcosystem in
      [if negb (seqb (py_commit p) "") then mkPkg (p_name details) (p_version details) (py_commit p) (p_eco details) (p_cmp details) else details]) l.
(** parse-pylock.go:33-71 ParsePylock *)
Definition parse_pylock (toml : string -> option (list PylockPackage)) (path : string) : pres :=
  decoded files toml path (fun l => packages_of (pylock_packages l)).

(** parse-renv-lock.go:9-17 *)
Record RenvPackage := mkRenv { rv_package : string; rv_version : string; rv_repo : string }.
Definition dec_renv_package : json -> option RenvPackage :=
  dec_struct (fun k v p =>
    if seqb k "package" then option_map (fun s => mkRenv s (rv_version p) (rv_repo p)) (dec_string v (rv_package p))
    else if seqb k "version" then option_map (fun s => mkRenv (rv_package p) s (rv_repo p)) (dec_string v (rv_version p))
    else if seqb k "repository" then option_map (fun s => mkRenv (rv_package p) (rv_version p) s) (dec_string v (rv_repo p))
    else Some p) (mkRenv "" "" "").
Definition dec_renv : json -> option (option (list (string * RenvPackage))) :=
  dec_struct (fun k v m => if seqb k "packages" then dec_map dec_renv_package v else Some m) None.
(** parse-renv-lock.go:36-51 *)
Definition renv_packages (m : list (string * RenvPackage)) : list Pkg :=
  flat_map (fun '(_, p) =>
    if negb (seqb (rv_repo p) "") && negb (seqb (rv_repo p) CRANEcosystem) then []
    else [mkPkg (rv_package p) (rv_version p) "" CRANEcosystem CRANEcosystem]) (it _ m).
(** parse-renv-lock.go:21-54 ParseRenvLock *)
Definition parse_renv_lock (path : string) : pres :=
  decoded files (json_pointer dec_renv) path (fun p => deref p (fun m => packages_of (renv_packages (map_entries m)))).

(** parse-uv-lock.go:11-33 *)
Record UvPackage := mkUv { uv_name : string; uv_version : string; uv_virtual : string; uv_git : string }.
(** parse-uv-lock.go:52-69 *)
Definition uv_packages (l : list UvPackage) : list Pkg :=
  flat_map (fun p =>
    if seqb (uv_virtual p) "." then []
    else [mkPkg (uv_name p) (uv_version p) (cut_after (uv_git p) "#") PipEcosystem PipEcosystem]) l.
(** parse-uv-lock.go:37-72 ParseUvLock *)
Definition parse_uv_lock (toml : string -> option (list UvPackage)) (path : string) : pres :=
  decoded files toml path (fun l => packages_of (uv_packages l)).
End WithEnv.
