(** What holds of all parsers. *)
From Coq Require Import QArith.
From Verif Require Import GoStr Types Json Scan NpmSpec PnpmLock PnpmSpec Lockfile Parsers.
From Verif Require JsonSpec.

(** which ecosystem the packages of a lockfile belong to *)
Definition file_ecosystem : list (string * string) :=
  [("buildscript-gradle.lockfile", "Maven"); ("bun.lock", "npm"); ("Cargo.lock", "crates.io"); ("composer.lock", "Packagist");
   ("Gemfile.lock", "RubyGems"); ("go.mod", "Go"); ("gradle.lockfile", "Maven"); ("mix.lock", "Hex"); ("package-lock.json", "npm");
   ("packages.lock.json", "NuGet"); ("pdm.lock", "PyPI"); ("Pipfile.lock", "PyPI"); ("pnpm-lock.yaml", "npm"); ("poetry.lock", "PyPI");
   ("pom.xml", "Maven"); ("pubspec.lock", "Pub"); ("pylock.toml", "PyPI"); ("renv.lock", "CRAN"); ("requirements.txt", "PyPI");
   ("uv.lock", "PyPI"); ("yarn.lock", "npm")].

(** a value somewhere in a document *)
Inductive inside (x : json) : json -> Prop :=
| in_self : inside x x
| in_arr : forall l j, In j l -> inside x j -> inside x (JArr l)
| in_obj : forall l k j, In (k, j) l -> inside x j -> inside x (JObj l).
(** a file holds a JSON document *)
Definition holds (files : string -> txt) (path : string) (j : json) : Prop :=
  exists content, files path = Text content false /\ JsonSpec.json_doc content j.

(** the files with comments and trailing commas removed *)
Definition through (f : string -> string) (files : string -> txt) : string -> txt :=
  fun p => match files p with Gone => Gone | Text c b => Text (f c) b end.
(** what a crash of a parser needs *)
Inductive crash_cause (D : Decoders) (files : string -> txt) (path : string) : ParserFn -> Prop :=
(* the document null *)
| cc_null : forall f, In f [ParseComposerLock; ParseNpmLock; ParseNuGetLock; ParsePipenvLock; ParseRenvLock] -> holds files path JNull ->
    crash_cause D files path f
| cc_bun_null : holds (through (dc_jsonc D) files) path JNull -> crash_cause D files path ParseBunLock
(* an alias npm:name without a version *)
| cc_alias : forall j v, holds files path j -> inside (JStr v) j -> bad_alias v -> crash_cause D files path ParseNpmLock
(* a version of one byte *)
| cc_short : forall j c, holds files path j -> inside (JStr (String c "")) j -> crash_cause D files path ParsePipenvLock
(* a tuple that is empty or null *)
| cc_tuple : forall j, holds (through (dc_jsonc D) files) path j -> inside JNull j \/ inside (JArr []) j -> crash_cause D files path ParseBunLock
(* the path of a package is a scope alone *)
| cc_scope : forall v l, pnpm_file files (dc_float D) (dc_pnpm D) path v l -> ~ v == 9 -> Exists (fun d => bare_scope (fst d)) l ->
    crash_cause D files path ParsePnpmLock.
