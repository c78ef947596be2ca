(** The parsers of parse.go:21-43, each with the decoders it calls. *)
From Coq Require Import QArith.
From Verif Require Import GoStr Types Scan GoMap LockIO Commit ListLocks KeyLocks NpmLock PnpmLock YarnLock LineLocks GemLock MavenLock GoLock Requirements Lockfile.
Local Open Scope string_scope.

(** Code of others that parsers call, by what it gives of a file's contents
    (None: an error) *)
Record Decoders := mkDecoders {
  dc_cargo : string -> option (list CargoPackage);             (* BurntSushi/toml *)
  dc_pdm : string -> option (list PdmPackage);
  dc_poetry : string -> option (list PoetryPackage);
  dc_pylock : string -> option (list PylockPackage);
  dc_uv : string -> option (list UvPackage);
  dc_pubspec : string -> option (option (option (list (string * PubPackage))));      (* yaml.v3 *)
  dc_pnpm : string -> option (option (option (string * option (list (string * PnpmPackage)))));
  dc_float : string -> option Q;                               (* strconv.ParseFloat *)
  dc_xml : string -> option xnode;                             (* encoding/xml *)
  dc_modfile : string -> string -> option GoMod;               (* x/mod/modfile *)
  dc_jsonc : string -> string;                                 (* tidwall/jsonc *)
  dc_url : string -> option Url }.                             (* net/url *)

Fixpoint req_fail (e : req_err) : lock_fail :=
  match e with RqOpen p => FRead p | RqScan p => FScan p | RqInclude line e => FInclude line (req_fail e) end.
Definition req_result (r : req_err + list Pkg) : pres := match r with inl e => fails_with (req_fail e) | inr ps => packages_of ps end.

Section WithEnv.
Variable D : Decoders.
Variable it : Iter.
Variable files : string -> txt.
(** bound on the depth of includes of a requirements.txt *)
Variable depth : nat.
(** what a parser does with a file and what it says on stderr; None: log.Fatal,
    or the bound is exceeded *)
Definition run_parser (f : ParserFn) (path : string) : option pres * list string :=
  let quiet r := (Some r, @nil string) in
  let loud (r : pres * list string) := (Some (fst r), snd r) in
  match f with
  | ParseBunLock => quiet (parse_bun_lock it files (dc_jsonc D) path)
  | ParseCargoLock => quiet (parse_cargo_lock files (dc_cargo D) path)
  | ParseComposerLock => quiet (parse_composer_lock files path)
  | ParseGemfileLock => (parse_gemfile_lock files path, [])
  | ParseGoLock => quiet (parse_go_lock it files (dc_modfile D) path)
  | ParseMixLock => loud (parse_mix_lock files path)
  | ParseNpmLock => quiet (parse_npm_lock it files (dc_url D) path)
  | ParseNuGetLock => quiet (parse_nuget_lock it files path)
  | ParsePdmLock => quiet (parse_pdm_lock files (dc_pdm D) path)
  | ParsePnpmLock => quiet (parse_pnpm_lock it files (dc_float D) (dc_pnpm D) path)
  | ParsePoetryLock => quiet (parse_poetry_lock files (dc_poetry D) path)
  | ParsePylock => quiet (parse_pylock files (dc_pylock D) path)
  | ParsePipenvLock => quiet (parse_pipenv_lock it files path)
  | ParseMavenLock => loud (parse_maven_lock it files (dc_xml D) path)
  | ParsePubspecLock => quiet (parse_pubspec_lock it files (dc_pubspec D) path)
  | ParseRenvLock => quiet (parse_renv_lock it files path)
  | ParseRequirementsTxt => (option_map req_result (parse_requirements_txt it files depth path), [])
  | ParseYarnLock => loud (parse_yarn_lock files (dc_url D) path)
  | ParseUvLock => quiet (parse_uv_lock files (dc_uv D) path)
  | ParseGradleLock => loud (parse_gradle_lock files path)
  end.
(** as the table of parsers that [parse] looks in; [text] gives the messages *)
Definition parsed (text : lock_fail -> string) (r : option pres) : PResult :=
  match r with
  | None | Some Panic => Panic
  | Some (Ok (inl f)) => Ok ([], Some (text f))
  | Some (Ok (inr ps)) => Ok (ps, None)
  end.
Definition impl (text : lock_fail -> string) (f : ParserFn) (path : string) : PResult := parsed text (fst (run_parser f path)).
End WithEnv.
