(** What the bytes of a lockfile list, for every kind of lockfile (C85). *)
From Coq Require Import QArith.
From Verif Require Import GoStr Types Json JsonSpec Scan LockIO Commit CommitSpec ListLocks KeyLocks LockSpec YarnSpec LineSpec Parsers.
From Verif Require GoLock GoSpec GemSpec MavenLock MavenSpec NpmLock NpmSpec PnpmSpec RequirementsSpec.
Local Open Scope string_scope.

(** the file has this text and the decoder gives [a] for it *)
Definition decodes {A} (files : string -> txt) (path : string) (decode : string -> option A) (a : A) : Prop :=
  exists content, files path = Text content false /\ decode content = Some a.
(** no version has an @ in it, so that name@version tells packages apart *)
Definition told_apart (P : Pkg -> Prop) : Prop := forall p, P p -> has_char "@" (p_version p) = false.
(** the packages of a bun.lock *)
Definition bun_file (D : Decoders) (files : string -> txt) (path : string) (m : list (string * list json)) : Prop :=
  exists content j, files path = Text content false /\ json_doc (dc_jsonc D content) j /\ bun_doc m j
    /\ forall d, In d m -> exists o, bun_entry (snd d) o.
(** the packages of a package-lock.json: their names are known, and those
    with the same name and version (or commit) are the same *)
Definition npm_made (D : Decoders) (l : list (string * NpmLock.NpmPackage)) (p : Pkg) : Prop :=
  exists path d, In (path, d) l /\ path <> "" /\ NpmSpec.npm_package_of (dc_url D) path d p.
Definition npm_file (D : Decoders) (files : string -> txt) (path : string) (l : list (string * NpmLock.NpmPackage)) : Prop :=
  exists j, json_file files path j /\ NpmSpec.npm_doc2 l j
    /\ (forall q d, In (q, d) l -> q <> "" -> exists e n, NpmSpec.rel_path e q /\ NpmSpec.path_name e n)
    /\ forall p q, npm_made D l p -> npm_made D l q -> NpmSpec.npm_id p = NpmSpec.npm_id q -> p = q.
Definition npm_file1 (D : Decoders) (files : string -> txt) (path : string) (deps : list (string * NpmLock.NpmDep)) : Prop :=
  exists j, json_file files path j /\ NpmSpec.npm_doc1 deps j /\ (forall n v, NpmSpec.dep_in deps n v -> ~ NpmSpec.bad_alias v) /\ NpmSpec.sound_deps (dc_url D) deps.
(** the entries of a pnpm-lock.yaml *)
Definition pnpm_lists (D : Decoders) (files : string -> txt) (path : string) (nine : bool) (l : list (string * PnpmLock.PnpmPackage)) : Prop :=
  exists v, PnpmSpec.pnpm_file files (dc_float D) (dc_pnpm D) path v l /\ (nine = true <-> (v == 9)%Q) /\ forall d, In d l -> exists o, PnpmSpec.pnpm_entry nine d o.
Definition go_file (D : Decoders) (files : string -> txt) (path : string) (f : GoLock.GoMod) : Prop :=
  exists content, files path = Text content false /\ dc_modfile D path content = Some f
    /\ (forall m, In m (GoLock.gm_require f) -> has_char "@" (GoLock.mod_version m) = false)
    /\ (forall r, In r (GoLock.gm_replace f) -> has_char "@" (GoLock.mod_version (GoLock.rp_new r)) = false).
Definition nuget_file (files : string -> txt) (path : string) (m : list (string * list (string * string))) : Prop :=
  exists j, json_file files path j /\ nuget_doc [("version", JNum "1")] m j /\ told_apart (fun p => In p (nuget_listed m)).
Definition pipenv_file (files : string -> txt) (path : string) (m : list (string * string)) : Prop :=
  exists j a b, json_file files path j /\ pipenv_doc a b j /\ m = (a ++ b)%list /\ told_apart (fun p => In p (pipenv_listed m)).
Definition required (files : string -> txt) (path : string) (p : Pkg) : Prop := exists q, RequirementsSpec.reach files path q /\ RequirementsSpec.requires files q p.

(** by the name that says which parser reads the file *)
Inductive format_lists (D : Decoders) (files : string -> txt) (path : string) : string -> Pkg -> Prop :=
| fl_yarn : forall ls bs h t n v r c, file_lines files path ls -> yarn_blocks ls bs -> In (h :: t) bs -> ~ skipped h -> header_name h n ->
    first_in version_line (h :: t) v -> first_in resolution_line (h :: t) r -> resolution_commit (dc_url D) r c ->
    format_lists D files path "yarn.lock" (mkPkg n v c "npm" "npm")
| fl_gradle : forall name ls l p, In name ["gradle.lockfile"; "buildscript-gradle.lockfile"] -> file_lines files path ls -> In l ls -> gradle_makes l (Some p) ->
    format_lists D files path name p
| fl_mix : forall ls l p, file_lines files path ls -> In l ls -> mix_makes l (Some p) -> format_lists D files path "mix.lock" p
| fl_gem : forall content ls ss ps p, files path = Text content false -> GemSpec.raw_lines content ls -> GemSpec.gem_sections ls ss -> GemSpec.sections_make ss ps ->
    In p ps -> format_lists D files path "Gemfile.lock" p
| fl_maven : forall cs ds d s p, decodes files path (dc_xml D) (MavenLock.XElem "project" cs) -> MavenSpec.declared cs ds -> MavenSpec.wins ds d -> MavenSpec.maven_pkg cs d p s ->
    format_lists D files path "pom.xml" p
| fl_go : forall f p, go_file D files path f -> GoSpec.stands_for f p -> format_lists D files path "go.mod" p
| fl_requirements : forall p, told_apart (required files path) -> required files path p -> format_lists D files path "requirements.txt" p
| fl_cargo : forall l e p, decodes files path (dc_cargo D) l -> In e l -> cargo_entry e p -> format_lists D files path "Cargo.lock" p
| fl_pdm : forall l e p, decodes files path (dc_pdm D) l -> In e l -> pdm_entry e p -> format_lists D files path "pdm.lock" p
| fl_poetry : forall l e p, decodes files path (dc_poetry D) l -> In e l -> poetry_entry e p -> format_lists D files path "poetry.lock" p
| fl_pylock : forall l e p, decodes files path (dc_pylock D) l -> In e l -> pylock_entry e (Some p) -> format_lists D files path "pylock.toml" p
| fl_uv : forall l e p, decodes files path (dc_uv D) l -> In e l -> uv_entry e (Some p) -> format_lists D files path "uv.lock" p
| fl_pubspec : forall m e p, decodes files path (dc_pubspec D) (Some (Some m)) -> In e m -> pubspec_entry e p -> format_lists D files path "pubspec.lock" p
| fl_composer : forall j a b e p, json_file files path j -> composer_doc a b j -> In e (a ++ b)%list -> composer_entry e p -> format_lists D files path "composer.lock" p
| fl_renv : forall j m e p, json_file files path j -> renv_doc m j -> In e m -> renv_entry (snd e) (Some p) -> format_lists D files path "renv.lock" p
| fl_nuget : forall m p, nuget_file files path m -> In p (nuget_listed m) -> format_lists D files path "packages.lock.json" p
| fl_pipenv : forall m p, pipenv_file files path m -> In p (pipenv_listed m) -> format_lists D files path "Pipfile.lock" p
| fl_bun : forall m d p, bun_file D files path m -> In d m -> bun_entry (snd d) (Some p) -> format_lists D files path "bun.lock" p
| fl_npm1 : forall deps k p, npm_file1 D files path deps -> NpmSpec.listed (dc_url D) deps k p -> format_lists D files path "package-lock.json" p
| fl_npm2 : forall l p, npm_file D files path l -> npm_made D l p -> format_lists D files path "package-lock.json" p
| fl_pnpm : forall nine l d p, pnpm_lists D files path nine l -> In d l -> PnpmSpec.pnpm_entry nine d (Some p) -> format_lists D files path "pnpm-lock.yaml" p.

(** the files for which that is all they list; of these kinds all files are *)
Definition always_clear : list string :=
  ["gradle.lockfile"; "buildscript-gradle.lockfile"; "mix.lock"; "Gemfile.lock"; "pom.xml"; "Cargo.lock"; "pdm.lock"; "poetry.lock"; "pylock.toml"; "uv.lock"; "pubspec.lock"].
Inductive format_clear (D : Decoders) (files : string -> txt) (path : string) : string -> Prop :=
| fc_always : forall name, In name always_clear -> format_clear D files path name
| fc_yarn : forall ls bs, file_lines files path ls -> yarn_blocks ls bs -> (forall h t, In (h :: t) bs -> skipped h \/ exists n, header_name h n) -> format_clear D files path "yarn.lock"
| fc_go : forall f, go_file D files path f -> format_clear D files path "go.mod"
| fc_requirements : told_apart (required files path) -> format_clear D files path "requirements.txt"
| fc_composer : forall j a b, json_file files path j -> composer_doc a b j -> format_clear D files path "composer.lock"
| fc_renv : forall j m, json_file files path j -> renv_doc m j -> format_clear D files path "renv.lock"
| fc_nuget : forall m, nuget_file files path m -> format_clear D files path "packages.lock.json"
| fc_pipenv : forall m, pipenv_file files path m -> format_clear D files path "Pipfile.lock"
| fc_bun : forall m, bun_file D files path m -> format_clear D files path "bun.lock"
| fc_npm1 : forall deps, npm_file1 D files path deps -> format_clear D files path "package-lock.json"
| fc_npm2 : forall l, npm_file D files path l -> format_clear D files path "package-lock.json"
| fc_pnpm : forall nine l, pnpm_lists D files path nine l -> format_clear D files path "pnpm-lock.yaml".
