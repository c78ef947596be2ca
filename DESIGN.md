# Formal model of osv-detector in Rocq (Coq 8.16.1)

## Approach

The Go code in `/repo` is modelled function by function as total, executable
Gallina functions over Coq `string` (= Go byte strings), `list`, `Z`/`nat`.
Nothing is run against the Go program; the tie to the code is the citation on
every definition (file and lines in `/repo`).

Conventions used everywhere:

* **Errors are values** (`sum`/`option`), **panics are values** (`Panic`), `nil`
  is an explicit case where the code can observe it.
* **External code is an explicit parameter** of the model (a record field or a
  `Section` variable, i.e. a universally quantified argument of the theorems):
  the version comparison library, the JSON/TOML/YAML/XML/modfile decoders,
  `net/url`, HTTP servers, the file system.  Laws needed of them are hypotheses
  visible in the theorem statement, and a concrete instance shows that they are
  satisfiable.
* **`sort.Slice` is unstable**: theorems quantify over every sorting function
  satisfying its contract (`GoSort.Sorter`): the result is a permutation,
  sorted if the comparison agrees with a strict weak order on distinct
  positions.  A sorting function also says which elements it compares, since
  a comparison can crash the program (C68).
* **Map iteration order is arbitrary**: maps are association lists; theorems
  quantify over permutations of them.
* **Goroutines** are a step relation over explicit states.
* **Regular expressions** are ASTs transcribed from the source, run by a small
  backtracking engine with Go's leftmost-first semantics (`Regex.v`).

Layout: `theories/<Area>.v` holds model definitions only, `<Area>Spec.v` the
independent specifications, `<Area>Proofs.v` lemmas, and `Props<Area>.v` the
property theorems (each closed by `exact`, with `Print Assumptions`).

## Files

| part of `/repo` | model | specification | property theorems |
|---|---|---|---|
| `pkg/database/osv.go` | `Types.v`, `Osv.v`, `OsvJson.v`, `Describe.v`, `Utf8.v` | `OsvSpec.v`, `OsvJsonSpec.v`, `DescribeSpec.v` | `PropsOsv.v`, `PropsOsvJson.v` |
| `pkg/database/mem-check.go`, `vulnerabilities.go` | `MemDB.v` | `MemDBSpec.v` | `PropsOsv.v` |
| `pkg/database/api*.go`, errgroup | `Api.v`, `ErrGroup.v` | `ApiSpec.v` | `PropsApi.v` |
| `pkg/database/zip.go`, `dir.go`, `config.go` | `ZipDB.v`, `Base64.v`, `DirDB.v`, `DbConfig.v` | `ZipSpec.v`, `DirDBSpec.v` | `PropsZip.v`, `PropsConfig.v` |
| `internal/configer/*.go` | `Configer.v` | `ConfigSpec.v` | `PropsConfig.v` |
| `internal/reporter/*.go` | `Report.v`, `Nulls.v` | `ReportSpec.v`, `ReportDocSpec.v` | `PropsReport.v`, `PropsReportDoc.v` |
| `main.go` | `Main.v`, `Flags.v` (with Go's `flag` package) | `MainSpec.v`, `EndSpec.v`, `FlagsSpec.v` | `PropsMain.v`, `PropsEnd.v`, `PropsFlags.v` |
| `pkg/lockfile/parse.go`, `ecosystems.go`, `csv.go` | `Lockfile.v`, `Ecosystems.v`, `Csv.v` | `LockfileSpec.v`, `CsvSpec.v` | `PropsLockfile.v` |
| `pkg/lockfile/parse-*.go` | `Requirements.v`, `YarnLock.v`, `Commit.v`, `NpmLock.v`, `PnpmLock.v`, `ListLocks.v` (cargo, composer, pdm, poetry, pubspec, pylock, renv, uv), `KeyLocks.v` (bun, NuGet, Pipenv), `LineLocks.v` (gradle, mix), `GemLock.v`, `MavenLock.v`, `GoLock.v`; all together in `Parsers.v` | one `...Spec.v` each | `PropsRequirements.v`, `PropsYarn.v`, ..., `PropsOrder.v`, `PropsParsers.v` |
| `internal/cachedregexp/regex.go` | `RegexCache.v` | in `PropsRegexCache.v` | `PropsRegexCache.v` |
| Go's library where it matters | `GoStr.v` (strings), `GoSort.v` (sort), `GoMap.v` (maps), `Path.v` (path), `Scan.v` (bufio), `Json.v`, `JsonDec.v` (encoding/json), `Csv.v` (encoding/csv), `Regex.v` (regexp), `Utf8.v` | | |

`properties.jsonl` states each property in terms of what a caller or user
sees; `MANIFEST.json` names the theorems of each.

## Plan per property

| id | model | theorem / proof idea |
|----|-------|----------------------|
| C01-C06 | `Osv.v` (osv.go) | declarative range semantics; induction over sorted events; permutation invariance; refutation by witness for GIT-first |
| C07-C11, C13 | `MemDB.v` (mem-check.go, vulnerabilities.go) | induction over loaded advisories; state-threaded checks with in-place reordering; invariant over histories |
| C12 | `Describe.v` | UTF-8 aware model of `truncate`; induction over runes |
| C14-C19 | `Api.v`, `ErrGroup.v` | batching by strong induction (with int64 wrap); step relation for errgroup with invariant; alignment by induction |
| C20-C25 | `ZipDB.v` | cache file state machine; invariant over histories; concrete JSON codec with prefix rejection for crashes |
| C26 | `DirDB.v` | tree walk, nested induction |
| C27-C30 | `DbConfig.v`, `Configer.v` | list inductions; file system as a map |
| C31-C32 | `Report.v` | fold invariant |
| C33-C39, C66 | `Main.v`, `Reporter.v` | `run` as a function with a trace of outputs/effects; invariants over the per-lockfile loop; heap of configs for pointer aliasing |
| C40-C44 | `Lockfile.v`, `Csv.v` | contract of the sorter; CSV reader model |
| C45-C48 | `Requirements.v` | fuelled recursion with termination theorem over finite file systems; reachability |
| C49-C62 | one file per parser | specification per format |
| C63 | `RegexCache.v` | step relation, invariant |
| C64 | panic results of the parsers | case analysis |
| C65 | `Report.v` | structural |
| C67, C68 | `Osv.v` | exactness of AffectsEcosystem; what makes a check crash |
| C69 | `Flags.v` | grammar of command lines and of integers; the parser decides it; rendering any options |
| C70 | `Main.v` and all databases | from the files and servers to the exit code: C33, C25/C26 and C07 put together |
| C71 | `OsvJson.v` | what a document says about each field; decoder decides it; round trip through the JSON printer |
| C72 | `Report.v`, `Main.v`, `OsvJson.v` | what a results document says; members of written objects; C71's round trip and C70's grounds give it for runs |
| C73 | `Main.v` | two runs related step by step: equal until configs are rewritten, then equal up to the order of writes to distinct files; sorting packages told apart has one outcome |
| C74 | `Warnings.v` with `ZipDB.v`, `DirDB.v`, `Osv.v` | notices follow the same control flow as loading; induction over the archive, the tree and the entries |
| C75 | `Json.v`, `Utf8.v`, `Base64.v`, `ZipDB.v` | RFC 8259, RFC 3629 and RFC 4648 as inductive relations (`JsonSpec.v`, `Base64Spec.v`); parser sound by induction on its fuel, complete by induction on the grammar |
| C76 | `Main.v`, `Lockfile.v` | the trace of a run as a grammar (`StorySpec.v`: `story`), proved step by step through `run`; the listing as lines and as a document (`ListDocSpec.v`) |
| C77 | `Main.v`, `MemDB.v`, `DbConfig.v` | two runs with different paths (`AmongSpec.v`): the checks of a lockfile in both agree (`same_checks`, `like_row`, `same_row`); exit codes of paths together and apart |
| C78 | `Main.v`, `ZipDB.v`, `DbConfig.v` | a run, and the same run with --offline from the caches it left (`OfflineSpec.v`): same code and same trace without the requests |
| C79 | `Main.v`, `Api.v`, `ApiExec.v` | runs whose API checks are executions of `Api.v` (`served`): what the server lists is reported, what is reported was listed (`ApiRunSpec.v`); `ApiExec.v` is one such execution, as a function |
| C80 | `FullRun.v` (with `Main.v`, `Warnings.v`) | the run once more with the notices of databases and parsers in their places and caches that may not be written; erasing the notices gives `run`; a grammar of steps and notices (`FullRunSpec.v`: `talk`) proved through the run, and completeness of the notices in runs that exit 0 or 1 |
| C81 | `Main.v`, `Report.v` | two runs in lockstep (`QuietSpec.v`: `like_ev`, `same_run`): same steps, the same advisories divided by two lists of ignores; rewritten configs compared up to the order of writing, with C73's lemmas |
| C82 | `LockIO.v`, `JsonDec.v`, `NpmLock.v`, `KeyLocks.v`, `ListLocks.v`, `Api.v`, `OsvJson.v`, `ZipDB.v` | types of JSON documents as predicates (`FitSpec.v`), with Go's int, float64 and byte ranges over the digits of a number (`NumSpec.v`); every decoder fails exactly on documents outside its type |
| C83 | `FullRun.v` | `UnprintedSpec.v`: the advisories that a trace lists; the run that cannot print them against the run of `Main.v` |
| C84 | `Main.v` and all databases | two runs, the second given more (`GrowSpec.v`: `grown`): C70's grounds in the first run are obligations of the second |
| C85 | `Parsers.v`, `OsvJson.v`, `Main.v` | C70 with the contents of files in place of parsed packages and advisories (`FormatSpec.v`, `BytesSpec.v`): C45 to C61 for lockfiles, C71 and C75 for advisories |
| C86 | `Main.v`, `Parsers.v`, `ZipDB.v`, `Osv.v`, `Api.v` | every `Panic` of a run is traced to its cause (`CrashRunSpec.v`): C64 for lockfiles, C68 for ranges, an unconditional request answered with 304; the causes crash the run |
| C87 | `Main.v` | the steps a run may take (`TouchSpec.v`: `allowed`), as an invariant in triples over `M` with a second postcondition for crashes; frames for configs and cache files |
| C88 | `Main.v`, `Configer.v` | two runs in lockstep on files that differ only in configs' ignores (`ReignoreSpec.v`: `reignored`, `twin_run`); the first run's files against those it started with, by C87 |
| C89 | `ZipDB.v`, `Main.v` | two runs in lockstep on different caches (`VeilSpec.v`: `steady`, `genuine`); requests compared without their conditions |
| C90 | `Windows.v` | arguments and the list of lockfiles, with any `filepath.IsAbs` meeting `AbsOk` (`WindowsSpec.v`); `C90_elsewhere` ties it to `Main.v` |
| C91 | `Main.v` | two runs in lockstep for any relation of states that outputs respect (`RetoldProofs.v`), used for `--json` and for other texts (`RetoldSpec.v`: `as_json`, `deed`) |
| C92 | `Api.v`, `Main.v` | batches are consecutive slices (C14), so a server that answers one by one (`BatchSpec.v`: `one_by_one`) gives the same list however it is cut; then two runs in lockstep, traces related event by event by `rebatched` |
| C93 | `Nulls.v` | slices with nil; which parsers begin with one; invariant that results of checks are reports (`NullProofs.v`); the listing as in C76 with null told apart (`NullSpec.v`) |
| C94 | `Main.v`, `MemDB.v`, `DbConfig.v` | two runs as in C77, the paths of one included in those of the other; with the same set of paths the exit codes are equal (`PathsProofs.v`) |
| C95 | `Main.v`, `Configer.v` | a run with the flags against a run without them whose configs are decoded to ones without ignores or databases, related step by step (`ClearProofs.v`) |
| C96 | `Main.v` | equality of two runs, one with `--parse-as` or directories, the other with all parsers and files spelled out (`SpellProofs.v`) |
| C97 | `Main.v`, `Report.v` | two runs whose `--ignore` lists have the same members, in lockstep (`IgnSetProofs.v`) |


## Trusted base

* **Coq's kernel** (8.16.1), with `vm_compute` in examples and a few lemmas
  about finite tables.
* **Assumptions.** `Print Assumptions` follows every property theorem in the
  `Props*.v` files; every one answers "Closed under the global context".  No
  axiom is declared here and none of the standard library is used.  (The seven
  `Coq.ssr.ssrunder` names a checker may list belong to modules that loading
  the standard library brings in; no theorem depends on them.)
* **The transcription** of the Go code, definition by definition, as cited.
  As a check on it, `conformance/lockfiles.py` evaluates the model of the
  parsers on the test data of `/repo/pkg/lockfile` and compares with what the
  Go tests expect: 239 tests, none differs (it is not part of the build).
  `conformance/runs.py` evaluates whole runs (`run_args`) on the cases of
  `/repo/main_test.go` and compares stdout, stderr, the exit code and rewritten
  configs with the snapshots, and likewise the end-to-end cases with
  `testdata/locks-e2e/*.out.txt`.  Of 89 runs 88 agree
  (all 73 with the snapshots, 15 of 16 end to end).  The one that differs is
  `3-yarn.lock`: the recorded output says 1225 packages, the model 1224.  The
  file has 1226 groups, of which `parse-yarn-lock.go` skips `__metadata:` and
  `"eslint-plugin-jest@workspace:.":`; so by the text of the code it is 1224,
  and the recording seems to be older than the second exception (the code was
  not run, so this is by reading only).  This checks less than it may
  seem: there is no network, so the databases are made up from the advisories
  the expected outputs mention, in the order of their IDs, each listing the
  versions it affects (so comparing versions is not exercised); the texts of
  errors from Go's library and the reading of YAML are supplied by the script
  too.  What is found is therefore given; what is done with it is compared.

### What is modelled, and how exactly

All 4,800 lines of Go outside the tests are modelled except what is listed
here.

Parameters (theorems hold for whatever they do, unless a hypothesis is stated):

* `osv-scalibr/semantic`: parsing and comparing versions (`Semantic`; C01,
  C02 and C70 ask that comparing is a total preorder, `VersionOrder`).
* Decoders: timestamps (`time.Time` in JSON); in whole runs also all of
  encoding/json for advisories (`w_dec_osv`, and `e_osv_json` for the way back;
  `OsvJson.v` models it) and the texts of errors; `toml`, `yaml.v3`, `modfile.Parse`, `jsonc.ToJSON`,
  `strconv.ParseFloat`, encoding/xml's tokens, `archive/zip`, `net/url`.  The
  way encoding/xml and encoding/json fill structs is modelled.
* HTTP servers (any answers), the file systems, `os.TempDir` and SHA-256 in
  the name of a cache file, the colours of `fatih/color`.
* `sort.Slice` (any function meeting the contract) and the iteration order of
  maps (any permutation).

Not modelled:

* the usage text and messages of the `flag` package;
* in `Main.v` and the theorems about `run`, the messages that databases and
  parsers write directly to `os.Stderr`, and caches that cannot be written:
  these are in `FullRun.v` (`run_full`), which C80 relates to `run`;
* Windows, except how arguments are split there (`main.go:408-420`), which is in
  `Windows.v` (C90) and not part of `run`;
* the version text built into the binary;
* allocation, time outs, the limits of the platform except 64-bit indices in
  the batching (C14) and the scanner's line limit (C48).

Simplifications, each noted at its definition:

* `strings.ToLower` (names of PyPI packages) is exact for ASCII only.
* encoding/json: a key occurring twice replaces a list or object instead of
  merging.
* In `Main.v` nil and empty slices print the same in the JSON document; it differs
  for listings only, for which `Nulls.v` has it as it is (C93).  In `Main.v`
  printing it does not fail; `FullRun.v` has the case that it does (json.Marshal
  refuses a timestamp whose zone is 24 hours off, which json.Unmarshal takes),
  which C83 relates to `run`.
* a timestamp of an advisory is unescaped before it is parsed.
* `regexp`: byte-wise engine with leftmost-first semantics (exact, since all
  literals are ASCII).
* a config file is read and written at the same place (no symbolic links under
  `..`).

## What the proofs found

Theorems named `..._refuted` state what one would expect, and refute it with a
witness.

| theorem | what happens |
|---|---|
| `C02_ties_refuted` | an `introduced` and a `fixed` event of the same version: the verdict depends on the order in which they are listed |
| `C03_any_range_refuted` | a GIT range hides every range listed after it |
| `C05_transitivity_refuted`, `C11_transitivity_refuted` | neither equality of ecosystems nor sharing an alias is transitive |
| `C07_suffixed_complete_refuted` | packages of an ecosystem with a suffix (`Alpine:v3.4`) never get a result from file databases |
| `C12_..._refuted` | texts of exactly 80 characters are cut; a cut may split a character |
| `C24_no_crash_refuted` | a 304 answer without a cache crashes |
| `C25_directory_boundary_refuted` | the working directory `a` also selects `ab/x.json` |
| `C27_identifier_refuted` | `#` in a url makes two databases one |
| `C30_crash_safe_refuted` | a crash while writing a config loses it |
| `C32_alias_refuted` | ignoring an alias does not ignore the advisory |
| `C35_shared_refuted` | with `--no-config --no-config-databases` all lockfiles use the last one's databases |
| `C37_unlisted_refuted` | errors of Stat and ReadDir are lost in a shadowed variable |
| `C45_clash_refuted`, `C51_clash_refuted` | a version with an `@` can hide another package |
| `C46_upper_refuted` | `<` and `===` leak into name or version |
| `C49_twice_refuted` | an aliased npm dependency may be listed twice |
| `C51_pnpm_refuted` | a pnpm file with two defects crashes or fails depending on map order |
| `C52_..._refuted` | pnpm 6: scoped or nested peers and build metadata are misread |
| `C54_words_refuted` | a gem with GIT, GEM or PATH in its name loses its commit |
| `C55_in_place_refuted` | Maven: the text around `${property}` is dropped |
| `C56_..._refuted` | go.mod: replacements chain, and one for a version can lose to one for all |
| `C65_multiline_refuted` | a summary with a newline adds lines to a report |
| `C69_anywhere_refuted` | a flag after the first path is taken for a path |
| `C70_fragment_refuted` | a `#` in a url: the advisories of a database are missed by a whole run |
| `C72_bytes_refuted` | names that differ only in invalid bytes look the same in the JSON document |
| `C73_writes_refuted`, `C73_ties_refuted` | configs are rewritten in map order; packages of one name and version at different commits are listed in the order found |
| `C76_line_ends_refuted` | the message about a failed update does not end its line |
| `C77_ignores_refuted` | with an ignored ID, two lockfiles pass one by one and fail together: the database order depends on the other lockfile |
| `C78_undated_refuted` | an archive served without etag and date is not kept, so the offline run after it exits 127 |
| `C80_exit_refuted` | an advisory that cannot be read is only told of: the run can exit 0 |
| `C81_exit_refuted` | ignoring all that is found shows an error that exit code 1 hid: 1 can become 127 |
| `C84_exit_refuted` | publishing another advisory can turn exit code 1 into 0: if its ID is ignored and it shares an alias, it stands for one that is not ignored |
| `C87_twice_refuted` | two databases in one archive (different working directories): the archive is requested twice |
| `C88_silenced_refuted` | after `--update-config-ignores` a lockfile without a config is still reported, and so is everything with `--no-config-ignores` |
| `C89_stale_refuted` | a cached archive whose body was changed, but not its etag, is used after a 304 and changes the exit code |
| `C90_relative_refuted` | `C:go.mod` (relative to a drive's current directory) is read by a parser `C`; on other platforms the drive of any path is |
| `C92_zero_refuted` | `--batch-size 0` makes every API database fail to load: exit code 127 instead of 1 |
| `C92_server_refuted` | with a server that answers a question about two packages differently from two questions, the size matters |
| `C93_array_refuted` | `--parse-as csv-row --list-packages --json` without rows prints `"packages":null`, not a list |
| `C94_ignores_refuted` | with an ignored ID, the order of two paths decides whether the run fails |
| `C95_no_config_refuted` | `--no-config --no-config-databases` checks lockfiles against fewer databases than `--no-config` with empty configs |
| `C96_rows_refuted` | `csv-row:npm,,x,1` is not a row but a path that cannot be opened |
| `C68_never_crashes_refuted` | a version the library cannot parse crashes the program |

Statements amended after a proof attempt failed (old text kept in git): C49,
C52, C54, C55, C56.

## Wrong programs

`seeded/mut.py` puts a wrong edit into a scratch copy of the model, replaces
failing proofs by `Admitted` there, and lists the property theorems that then
depend on them; `seeded/LOG.jsonl` has one line per edit.
