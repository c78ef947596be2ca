(** pkg/lockfile/parse.go, ecosystems.go *)
From Verif Require Import GoStr GoSort Types Path MemDB GoMap.

(** parse.go:91-95 Lockfile *)
Record Lockfile := mkLF { lf_path : string; lf_as : string; lf_pkgs : list Pkg }.
Definition empty_lockfile : Lockfile := mkLF "" "" [].

(** what a parser returns: packages and an error (its text), or a panic *)
Definition PResult := res (list Pkg * option string).
(** types.go:7 PackageDetailsParser *)
Definition Parser := string -> PResult.

(** the parser functions named in parse.go:21-43 *)
Inductive ParserFn :=
| ParseBunLock | ParseCargoLock | ParseComposerLock | ParseGemfileLock | ParseGoLock | ParseMixLock
| ParseNpmLock | ParseNuGetLock | ParsePdmLock | ParsePnpmLock | ParsePoetryLock | ParsePylock
| ParsePipenvLock | ParseMavenLock | ParsePubspecLock | ParseRenvLock | ParseRequirementsTxt
| ParseYarnLock | ParseUvLock | ParseGradleLock.

(** parse.go:21-43 parsers *)
Definition parsers : list (string * ParserFn) :=
  [ ("bun.lock", ParseBunLock); ("Cargo.lock", ParseCargoLock); ("composer.lock", ParseComposerLock);
    ("Gemfile.lock", ParseGemfileLock); ("go.mod", ParseGoLock); ("mix.lock", ParseMixLock);
    ("package-lock.json", ParseNpmLock); ("packages.lock.json", ParseNuGetLock); ("pdm.lock", ParsePdmLock);
    ("pnpm-lock.yaml", ParsePnpmLock); ("poetry.lock", ParsePoetryLock); ("pylock.toml", ParsePylock);
    ("Pipfile.lock", ParsePipenvLock); ("pom.xml", ParseMavenLock); ("pubspec.lock", ParsePubspecLock);
    ("renv.lock", ParseRenvLock); ("requirements.txt", ParseRequirementsTxt); ("yarn.lock", ParseYarnLock);
    ("uv.lock", ParseUvLock); ("gradle.lockfile", ParseGradleLock); ("buildscript-gradle.lockfile", ParseGradleLock) ].

(** parse.go:12-18 FindParser *)
Definition find_parser (path parse_as : string) : option ParserFn * string :=
  let parse_as := if seqb parse_as "" then path_base path else parse_as in
  (map_get parse_as parsers, parse_as).

(** parse.go:137-143 the comparison of the packages *)
Definition pkg_less (a b : Pkg) : bool :=
  if seqb (p_name a) (p_name b) then str_ltb (p_version a) (p_version b)
  else str_ltb (p_name a) (p_name b).

Section WithSort.
Variable S : Sorter.
Variable it : Iter.

(** parse.go:45-57 ListParsers *)
Definition list_parsers : list string :=
  S _ (fun a b => str_ltb (to_lower a) (to_lower b)) (it _ (map fst parsers)).

(** parse.go:63-75 toSliceOfEcosystems *)
Definition to_slice_of_ecosystems (m : list string) : list string :=
  filter (fun e => negb (seqb e "")) (it _ m).
(** parse.go:77-89 Ecosystems *)
Definition ecosystems (ps : list Pkg) : list string :=
  let m := fold_left (fun m p => set_add (p_eco p) m) ps [] in
  S _ str_ltb (to_slice_of_ecosystems m).

(** parse.go:128-150 Parse: the lockfile and the error.  [impl] runs a parser
    function on a path. *)
Inductive parse_err := PNoParser (path : string) | PParser (msg : string).
Definition parse (impl : ParserFn -> Parser) (path parse_as : string) : res (Lockfile * option parse_err) :=
  let '(parser, parsed_as) := find_parser path parse_as in
  match parser with
  | None => Ok (empty_lockfile, Some (PNoParser path))
  | Some f =>
      rbind (impl f path) (fun '(packages, err) =>
        Ok (mkLF path parsed_as (S _ pkg_less packages), option_map PParser err))
  end.
End WithSort.

(** parse.go:97-121 String *)
Definition pkg_line (p : Pkg) : string :=
  let eco := if seqb (p_eco p) "" then "<unknown>" else p_eco p in
  let ln := "  " +s+ eco +s+ ": " +s+ p_name p in
  let ln := if negb (seqb (p_version p) "") then ln +s+ "@" +s+ p_version p else ln in
  if negb (seqb (p_commit p) "") then ln +s+ " (" +s+ p_commit p +s+ ")" else ln.
Definition newline : string := String "010" "".
Definition lockfile_string (l : Lockfile) : string := join newline (map pkg_line (lf_pkgs l)).
