{"id": "C01", "title": "Range verdicts follow the OSV range semantics", "statement": "OSV.IsAffected decides an ECOSYSTEM/SEMVER range exactly as the OSV schema prescribes: a version v is inside the range iff there is an `introduced` event i <= v (\"0\" counts as below everything) such that every `fixed` event f <= v and every `last_affected` event l < v lies strictly before i.", "quantifier": "every range (any number of events, in any order), every package version, and every version ordering that is a total preorder, provided no `introduced` event shares its version with a `fixed`/`last_affected` event", "why_tests_cant": "The event list, its order and the version ordering are unbounded; tests sample a few literal ranges in sorted order.", "anchors": ["pkg/database/osv.go: AffectsRange.containsVersion", "pkg/database/osv.go: RangeEvent.version"]}
{"id": "C02", "title": "Range verdicts do not depend on event order or on earlier checks", "statement": "Checking a package against a range gives the same answer whatever order the advisory lists its events in, and although checking reorders the advisory's events in place, no earlier check of any other package can change a later verdict. (If an `introduced` event shares a version with a limiting event the verdict does depend on the order; this is exhibited.)", "quantifier": "every permutation of every event list, every unstable sort satisfying sort.Slice's contract, every history of earlier checks", "why_tests_cant": "Order independence quantifies over all permutations and all histories of in-place mutations; tests use one order and fresh advisories.", "anchors": ["pkg/database/osv.go: AffectsRange.containsVersion", "pkg/database/osv.go: Affects.affectsVersion"]}
{"id": "C03", "title": "Which ranges of an affected entry are honoured", "statement": "A version is considered affected by a list of ranges iff some ECOSYSTEM or SEMVER range contains it and no range of another type (e.g. GIT) is listed before that range. The documented rule (any such range suffices) is refuted: a GIT range listed first hides every range after it.", "quantifier": "every list of ranges and every package", "why_tests_cant": "Needs all lists of mixed range types in all orders.", "anchors": ["pkg/database/osv.go: Affects.affectsVersion"]}
{"id": "C04", "title": "Exact meaning of IsAffected", "statement": "OSV.IsAffected(pkg) is true iff some affected entry has an equal ecosystem (suffix rule) and a normalised name equal to the package's name, has at least one range or version, and either lists the exact version, or has a range honouring it, or the package has no version.", "quantifier": "every advisory and every package", "why_tests_cant": "Unbounded advisories and version strings; the interaction of several affected entries is combinatorial.", "anchors": ["pkg/database/osv.go: OSV.IsAffected"]}
{"id": "C05", "title": "Ecosystem suffixes only matter when both sides have one", "statement": "Ecosystem equality ignores the part after the first colon unless both sides have a non-empty suffix, in which case the suffixes must match too; the relation is reflexive and symmetric.", "quantifier": "all pairs of ecosystem strings", "why_tests_cant": "All strings, with any number of colons.", "anchors": ["pkg/database/osv.go: areEcosystemsEqual", "pkg/database/osv.go: Package.NormalizedEcosystem"]}
{"id": "C06", "title": "PyPI names are compared up to PEP 503 normalisation", "statement": "The normalised name of a PyPI package lower-cases it and collapses every run of '-', '_' and '.' to one '-'; it is idempotent, other ecosystems' names are untouched, and the requirements.txt parser normalises to the same name, so any spelling of a name in requirements.txt matches any spelling in an advisory.", "quantifier": "all names", "why_tests_cant": "All strings.", "anchors": ["pkg/database/osv.go: Package.NormalizedName", "pkg/lockfile/parse-requirements-txt.go: normalizedRequirementName"]}
{"id": "C07", "title": "File-based database checks are sound and complete", "statement": "For each package, Check on a zip/dir database reports only loaded, non-withdrawn advisories that affect the package, and every loaded non-withdrawn advisory that affects a package whose ecosystem has no suffix is either reported or has a reported advisory it shares an ID or alias with. Bucket-key collisions never cause a wrong report.", "quantifier": "every sequence of loaded advisories, every package", "why_tests_cant": "Completeness is a statement about all databases; a single missed bucket would be a silent false negative.", "anchors": ["pkg/database/mem-check.go: memDB.addVulnerability, memDB.VulnerabilitiesAffectingPackage"]}
{"id": "C08", "title": "Check results are index-aligned with the packages", "statement": "Check returns exactly one result per package, in the order the packages were given, and the result at each index depends only on that package.", "quantifier": "every package list, every database", "why_tests_cant": "All list lengths and positions.", "anchors": ["pkg/database/db.go: DB.Check", "pkg/database/mem-check.go: memDB.Check", "pkg/database/api-check.go: APIDB.Check"]}
{"id": "C09", "title": "Pre-filtering advisories by package name never changes results", "statement": "Loading a database with a list of package names gives, for every package whose name is in the list, exactly the same Check results as loading every advisory; the advisory count is unaffected by the filter.", "quantifier": "every advisory sequence, every name list (including the empty one), every package in it", "why_tests_cant": "The optimisation must be invisible for all databases; tests check one.", "anchors": ["pkg/database/mem-check.go: memDB.addVulnerability", "pkg/database/zip.go: mightAffectPackages"]}
{"id": "C10", "title": "Withdrawn advisories are never reported by file databases", "statement": "No result of Check on a zip/dir database contains a withdrawn advisory, and Vulnerabilities(false) never lists one while Vulnerabilities(true) lists every loaded ID exactly once.", "quantifier": "every database and map iteration order", "why_tests_cant": "All databases and all map iteration orders.", "anchors": ["pkg/database/mem-check.go: memDB.Vulnerabilities, memDB.VulnerabilitiesAffectingPackage"]}
{"id": "C11", "title": "Alias de-duplication", "statement": "Unique keeps, in order, the advisories that share no ID/alias with an earlier kept one: the kept ones are pairwise unrelated, every dropped one is related to an earlier kept one, and applying it twice changes nothing. Being related is symmetric.", "quantifier": "every list of advisories", "why_tests_cant": "Alias sharing is not transitive, so all alias graphs and orders matter.", "anchors": ["pkg/database/vulnerabilities.go: Vulnerabilities.Unique, Vulnerabilities.Includes", "pkg/database/osv.go: OSV.isAliasOf"]}
{"id": "C12", "title": "Advisory descriptions", "statement": "The description shown for an advisory is its summary, or its details cut with an ellipsis at the last whitespace within the first 80 characters (at byte 80 if there is none) when they have 80 or more characters, or a placeholder; GHSA advisories get a link. Cutting never panics. (Details of exactly 80 characters are cut although not longer than the limit; a cut may split a UTF-8 character.)", "quantifier": "all summaries and details, any UTF-8 or invalid bytes", "why_tests_cant": "All strings, including multi-byte and invalid ones.", "anchors": ["pkg/database/osv.go: truncate, OSV.Describe, OSV.Link"]}
{"id": "C13", "title": "Repeated checks on one database are reproducible", "statement": "Whatever packages were checked before on a loaded database, checking a package list gives the same verdicts as on a freshly loaded one.", "quantifier": "every history of Check calls on every database whose ranges have no introduced/limiting version ties", "why_tests_cant": "Check mutates shared advisory data; all histories must be considered.", "anchors": ["pkg/database/mem-check.go: memDB.Check", "pkg/database/osv.go: AffectsRange.containsVersion"]}
{"id": "C14", "title": "Batching partitions the packages", "statement": "API queries are split into consecutive, non-empty batches of exactly the batch size (the last may be smaller) whose concatenation is the package list; no package is dropped, repeated or reordered and the 64-bit index arithmetic does not wrap.", "quantifier": "every package list and every batch size from 1 to MaxInt", "why_tests_cant": "All lengths and sizes, including the wrap-around boundary.", "anchors": ["pkg/database/api-check.go: batchPkgs"]}
{"id": "C15", "title": "Concurrent API batches are schedule independent", "statement": "However the batch (and detail) requests are interleaved, the gathered results are those of the sequential execution in batch order; at most 100 (200) requests are in flight; an error is returned iff some batch failed and it is the error of a failing batch; every schedule terminates.", "quantifier": "every interleaving of submissions and completions, any number of batches", "why_tests_cant": "All interleavings.", "anchors": ["pkg/database/api-check.go: APIDB.Check", "pkg/database/api-fetch-all.go: APIDB.FetchAll"]}
{"id": "C16", "title": "API checks never lose or misplace an advisory", "statement": "On success Check returns, for the k-th package, exactly the IDs the API listed for the k-th query, in order; an ID whose details could not be fetched (or whose fetched document has another ID) is still reported by ID alone.", "quantifier": "every package list, every server behaviour for queries and detail fetches, every unstable sort", "why_tests_cant": "All server behaviours and failures.", "anchors": ["pkg/database/api-check.go: APIDB.Check, findOrDefault", "pkg/database/api-fetch-all.go: APIDB.FetchAll"]}
{"id": "C17", "title": "API query payloads", "statement": "Each query carries name+ecosystem+version when all three are known and nothing else, otherwise only the commit if there is one, otherwise nothing.", "quantifier": "every package", "why_tests_cant": "All combinations of present and absent fields.", "anchors": ["pkg/database/api-check.go: APIDB.buildAPIPayload"]}
{"id": "C18", "title": "API failures are errors, never partial results", "statement": "A batch yields results only if the request succeeded with status 200, a readable JSON body, and exactly one result per query; every other outcome makes Check return an error and no results.", "quantifier": "every HTTP outcome", "why_tests_cant": "All response shapes.", "anchors": ["pkg/database/api-check.go: APIDB.checkBatch, APIDB.Check"]}
{"id": "C19", "title": "Each distinct advisory is fetched exactly once", "statement": "Check requests the details of each distinct ID listed by the API exactly once.", "quantifier": "every set of query results", "why_tests_cant": "All multiplicities of IDs across packages and batches.", "anchors": ["pkg/database/api-check.go: APIDB.Check", "pkg/database/api-fetch-all.go: APIDB.FetchAll"]}
{"id": "C20", "title": "Offline mode performs no network requests", "statement": "With --offline no HTTP request is made by any database, whatever the configuration, and API databases are refused.", "quantifier": "every run configuration, every database configuration", "why_tests_cant": "All configurations and cache states.", "anchors": ["pkg/database/zip.go: ZipDB.fetchZip", "pkg/database/api.go: NewAPIDB", "pkg/database/dir.go: NewDirDB", "main.go: run"]}
{"id": "C21", "title": "Offline zip databases come from the cache", "statement": "Offline, a zip database is loaded from exactly the cached archive body and reports the cached date, or fails with the not-found error if there is no usable cache; the cache file is not modified.", "quantifier": "every cache file content", "why_tests_cant": "All file contents.", "anchors": ["pkg/database/zip.go: ZipDB.fetchZip"]}
{"id": "C22", "title": "Archive cache coherence", "statement": "After any history of loads, the cache's etag, date and body come from one and the same download of that URL, so against a server that answers 304 only when its current archive carries the presented etag, an online load always uses the server's current archive.", "quantifier": "every history of online/offline loads and server updates", "why_tests_cant": "All histories.", "anchors": ["pkg/database/zip.go: ZipDB.fetchZip"]}
{"id": "C23", "title": "Crash-safe archive cache", "statement": "If the process dies at any point while writing the cache file, later loads never use a torn archive: a partially written cache is treated as absent.", "quantifier": "every crash point (every prefix of the written file)", "why_tests_cant": "All crash points.", "anchors": ["pkg/database/zip.go: ZipDB.fetchZip"]}
{"id": "C24", "title": "Failed downloads are reported and leave the cache alone", "statement": "Any status other than 200/304, a transport error or an unreadable body makes the load fail and leaves the cache file as it was. (A 304 answer without a cache crashes the program.)", "quantifier": "every HTTP outcome and cache state", "why_tests_cant": "All outcomes.", "anchors": ["pkg/database/zip.go: ZipDB.fetchZip"]}
{"id": "C25", "title": "Archive entries selected", "statement": "A zip database loads exactly the entries whose name starts with the working directory and ends in .json and that are readable valid JSON, in archive order; a bad entry does not affect others.", "quantifier": "every archive", "why_tests_cant": "All archives.", "anchors": ["pkg/database/zip.go: ZipDB.load, ZipDB.loadZipFile"]}
{"id": "C26", "title": "Directory databases load every JSON file recursively", "statement": "A dir database loads every readable, valid .json file anywhere under the directory exactly once and nothing else, and fails iff the location is not a file: URL or the directory cannot be found.", "quantifier": "every directory tree", "why_tests_cant": "All trees of any depth.", "anchors": ["pkg/database/dir.go: DirDB.load"]}
{"id": "C27", "title": "Database identity and de-duplication of configurations", "statement": "Configured databases are loaded once per identifier, keeping first occurrences in order; identifiers are distinct for distinct (type, url, working directory) when types and urls contain no '#' (otherwise two different databases can be confused, which is exhibited).", "quantifier": "every list of configurations", "why_tests_cant": "All strings and lists.", "anchors": ["pkg/database/config.go: Config.Identifier", "main.go: uniqueDBConfigs"]}
{"id": "C28", "title": "Database type inference and validation", "statement": "A configured database gets its explicit type, else dir for file:/ urls, else zip for urls ending in .zip, else api; invalid entries are reported and skipped without affecting the others, and the resulting type is always one of the three that can be loaded.", "quantifier": "every configuration", "why_tests_cant": "All configurations.", "anchors": ["internal/configer/load.go: inferDBType, toConfig, newConfig", "pkg/database/config.go: Load"]}
{"id": "C29", "title": "Local config lookup", "statement": "The .yml config in the lockfile's directory wins over .yaml, a missing file falls through, any other error is reported (never silently ignored), and no config gives an empty one.", "quantifier": "every file system state", "why_tests_cant": "All combinations of file states.", "anchors": ["internal/configer/load.go: Find, Load, load"]}
{"id": "C30", "title": "Updating config ignores only changes the ignore list", "statement": "UpdateWithIgnores keeps every configured database (also invalid ones) and replaces exactly the ignore list; if the config cannot be read nothing is written. A crash between truncation and completion of the write loses the config (exhibited).", "quantifier": "every config, every ignore list, every crash point", "why_tests_cant": "All contents and crash points.", "anchors": ["internal/configer/update.go: UpdateWithIgnores"]}
{"id": "C31", "title": "Every found vulnerability is accounted for in the report", "statement": "For each package every advisory returned by any database is in `vulnerabilities` or `ignored`, or is a duplicate (same ID or alias) of one that is; nothing else appears, and no two listed entries are duplicates of each other.", "quantifier": "every set of databases, results and ignores", "why_tests_cant": "All database results and alias graphs.", "anchors": ["main.go: transposePkgResults, check"]}
{"id": "C32", "title": "Ignores", "statement": "A listed vulnerability is in `ignored` iff its own ID is in the ignore list, else in `vulnerabilities`; which advisories are listed at all does not depend on the ignore list.", "quantifier": "every ignore list and database results", "why_tests_cant": "All inputs.", "anchors": ["main.go: transposePkgResults"]}
{"id": "C33", "title": "Exit codes", "statement": "A check run exits 0 iff no error was reported and every lockfile was checked without un-ignored vulnerabilities; it exits 127 if a lockfile or config could not be read or a database could not be loaded; it exits 1 only if an un-ignored vulnerability was found; 128 exactly when paths were given, none errored and no lockfile was found.", "quantifier": "every command line, file system, database behaviour", "why_tests_cant": "All combinations of failures across files and databases.", "anchors": ["main.go: run", "internal/reporter/reporter.go: Reporter.HasErrored"]}
{"id": "C34", "title": "Updating ignores makes the next run clean", "statement": "After --update-config-ignores, repeating the run on the same inputs reports no un-ignored vulnerability for any lockfile that uses a config.", "quantifier": "every set of lockfiles, configs, databases and ignores", "why_tests_cant": "All alias graphs and orders.", "anchors": ["main.go: run, writeUpdatedConfigs", "internal/configer/update.go: UpdateWithIgnores"]}
{"id": "C35", "title": "Each lockfile is checked against its own databases", "statement": "With per-lockfile or --config configs a lockfile is checked against exactly the successfully loaded databases among: those of its own config (unless --no-config-databases), the API if enabled, and the ecosystem databases of its own packages. With --no-config the ecosystem databases of all lockfiles are shared.", "quantifier": "every set of lockfiles and flags", "why_tests_cant": "Aliasing between configs only shows with several lockfiles.", "anchors": ["main.go: readAllLockfiles, adjustExtraDatabases, forConfigs, loadDatabases"]}
{"id": "C36", "title": "Parse-as prefixes round-trip", "statement": "The parser name and path that discovery encodes into one string are recovered unchanged, for any path (colons included).", "quantifier": "every path and parser name without a colon", "why_tests_cant": "All strings.", "anchors": ["main.go: parseLockfilePathWithParseAs, findAllLockfiles"]}
{"id": "C37", "title": "Directory discovery", "statement": "Given a directory, exactly its regular entries with a recognised name (or all of them with an explicit known parser or csv-file) are checked, in sorted order, without recursion; a file path is always taken; unreadable paths are errors.", "quantifier": "every directory listing order and parse-as value", "why_tests_cant": "All directory contents.", "anchors": ["main.go: findLockfiles, findAllLockfiles"]}
{"id": "C38", "title": "JSON mode keeps stdout machine readable", "statement": "With --json the only thing ever written to stdout is one JSON document at the end, whose results list the reports in lockfile order; everything else goes to stderr.", "quantifier": "every run", "why_tests_cant": "All runs and error paths.", "anchors": ["internal/reporter/reporter.go: PrintTextf, PrintErrorf, PrintResult, PrintJSONResults", "main.go: run"]}
{"id": "C39", "title": "--list-packages touches neither configs nor databases", "statement": "With --list-packages no config file is read, no database is loaded and no network request made, and every parsed lockfile's package list is printed.", "quantifier": "every run with that flag", "why_tests_cant": "All runs.", "anchors": ["main.go: run, loadDatabases"]}
{"id": "C40", "title": "Parsed packages are a sorted permutation", "statement": "Parse returns the parser's packages reordered so that they are sorted by name then version; none is lost or duplicated; on failure the error is kept.", "quantifier": "every parser output", "why_tests_cant": "All lists and all unstable sorts.", "anchors": ["pkg/lockfile/parse.go: Parse"]}
{"id": "C41", "title": "Ecosystem listing", "statement": "Ecosystems() returns the distinct non-empty ecosystems of the packages in sorted order, independent of map iteration order; every ecosystem produced by a parser is among KnownEcosystems().", "quantifier": "every package list and iteration order", "why_tests_cant": "All iteration orders.", "anchors": ["pkg/lockfile/parse.go: Packages.Ecosystems, toSliceOfEcosystems", "pkg/lockfile/ecosystems.go: KnownEcosystems"]}
{"id": "C42", "title": "Parser selection", "statement": "FindParser uses the explicit name when given and the file's base name otherwise, and finds a parser iff that name is one of the 21 supported ones; ListParsers lists exactly those names, ordered ignoring case.", "quantifier": "every path and parse-as", "why_tests_cant": "All strings.", "anchors": ["pkg/lockfile/parse.go: FindParser, ListParsers, parsers"]}
{"id": "C43", "title": "CSV records", "statement": "A CSV record of at least four fields with a name yields a package with that ecosystem, comparing as the second field or the ecosystem if blank; a record without ecosystem yields a commit-only package; all other records are rejected.", "quantifier": "every record", "why_tests_cant": "All field combinations.", "anchors": ["pkg/lockfile/csv.go: fromCSVRecord"]}
{"id": "C44", "title": "CSV inputs", "statement": "Loading CSV rows/files either yields one package per row, sorted, or an error naming the first bad row; rows without quotes are split at commas.", "quantifier": "every CSV text", "why_tests_cant": "All texts.", "anchors": ["pkg/lockfile/csv.go: fromCSV, FromCSVRows, FromCSVFile"]}
{"id": "C45", "title": "requirements.txt includes are followed exactly once and always terminate", "statement": "Parsing a requirements file terminates on every include graph (cycles included) and, when it succeeds, reports exactly the requirements of the files reachable through -r from it, each once per name and version.", "quantifier": "every finite file system and include graph", "why_tests_cant": "All graphs, cycles and depths.", "anchors": ["pkg/lockfile/parse-requirements-txt.go: parseRequirementsTxt"]}
{"id": "C46", "title": "requirements.txt lines give the name and lowest admitted version", "statement": "A line `name OP version` with a single constraint ==, >=, ~= yields that (normalised, extras removed) name and that version, `!=` or no constraint yields version 0.0.0.", "quantifier": "all names and versions free of constraint symbols", "why_tests_cant": "All strings.", "anchors": ["pkg/lockfile/parse-requirements-txt.go: parseLine"]}
{"id": "C47", "title": "requirements.txt line continuations", "statement": "A line is continued iff it ends with an odd number of backslashes; joining terminates for every input.", "quantifier": "every line and every file", "why_tests_cant": "All lengths of backslash runs and files.", "anchors": ["pkg/lockfile/parse-requirements-txt.go: isLineContinuation, parseRequirementsTxt"]}
{"id": "C48", "title": "requirements.txt comments and non-requirements", "statement": "A comment starts at a '#' that is at the start of the line or preceded by whitespace and extends to the end; the remainder is trimmed; blank lines, flags, urls and paths are skipped.", "quantifier": "every line", "why_tests_cant": "All strings.", "anchors": ["pkg/lockfile/parse-requirements-txt.go: removeComments, isNotRequirementLine"]}
{"id": "C49", "title": "npm v1 lockfiles report dependencies at every depth", "statement": "Every dependency at any nesting depth of a v1 package-lock.json is reported, under its real name for aliases, with version or commit, exactly once per name and commit or version as written; so exactly once per name and version/commit unless an alias (or several file: dependencies) lead to the same package, which then appears once for each spelling.", "quantifier": "every dependency tree and map iteration order", "why_tests_cant": "All depths and iteration orders.", "anchors": ["pkg/lockfile/parse-npm-lock.go: parseNpmLockDependencies, mergePkgDetailsMap"]}
{"id": "C50", "title": "npm v2+ lockfiles report every package path", "statement": "Every non-root entry of `packages` is reported with its explicit name or the name in the last path segments (scope included), deduplicated by name and version/commit.", "quantifier": "every packages map and iteration order", "why_tests_cant": "All maps and iteration orders.", "anchors": ["pkg/lockfile/parse-npm-lock.go: parseNpmLockPackages, extractNpmPackageName, parseNpmLock"]}
{"id": "C51", "title": "Map iteration order does not influence what is reported", "statement": "For lockfiles decoded into maps the reported set of packages is the same for every iteration order, provided names and versions do not make two different packages share a key (exhibited otherwise).", "quantifier": "every iteration order of every map", "why_tests_cant": "Go randomises the order; tests see one.", "anchors": ["pkg/lockfile/parse-npm-lock.go", "pkg/lockfile/parse-nuget-lock.go", "pkg/lockfile/parse-pipenv-lock.go", "pkg/lockfile/parse-go-lock.go", "pkg/lockfile/parse-maven-lock.go", "pkg/lockfile/parse-pnpm-lock.go"]}
{"id": "C52", "title": "pnpm dependency paths", "statement": "name and version are recovered from every pnpm dependency path of lockfile v5 (/name/version[_peers]), v6 (/name@version[(peers)], peers unscoped and without peers of their own) and v9 (name@version), scoped or not; explicit name/version fields take priority; the commit of a codeload tarball is preferred to the recorded one; entries without name or version are skipped. A path without a slash fails the file, a path ending in a bare scope crashes (both only before v9), nothing else does. Not so for v6 paths whose peers are scoped or nested or whose version has build metadata: these are dropped or misread.", "quantifier": "every name, version and peer suffix of the documented shape", "why_tests_cant": "All strings.", "anchors": ["pkg/lockfile/parse-pnpm-lock.go: extractPnpmPackageNameAndVersion, parseNameAtVersion, parsePnpmLock"]}
{"id": "C53", "title": "yarn.lock grouping and extraction", "statement": "Every non-comment block of a yarn.lock other than metadata and the root workspace yields exactly one package with the name (alias target for npm: aliases), the value of its version line and its commit; name extraction terminates on every line.", "quantifier": "every yarn.lock", "why_tests_cant": "All files.", "anchors": ["pkg/lockfile/parse-yarn-lock.go: groupPackageLines, extractYarnPackageName, parsePackageGroup, ParseYarnLock"]}
{"id": "C54", "title": "Gemfile.lock specs", "statement": "Exactly the four-space-indented spec lines of source sections yield packages, named up to the earliest version or end mark, with their version without platform, carrying the revision given earlier in their own section (a section ends where an unindented line, or a line with GIT, GEM, PATH or PLUGIN SOURCE in it, begins the next; so a package whose name contains such a word loses its commit, exhibited); the parser's fatal branches are unreachable.", "quantifier": "every Gemfile.lock", "why_tests_cant": "All files and section orders.", "anchors": ["pkg/lockfile/parse-gemfile-lock.go"]}
{"id": "C55", "title": "Maven dependencies", "statement": "Each group:artifact is reported once with the declaration that wins (direct over managed, later over earlier); a version requirement resolves to its lower bound, or 0 when it has none; a version with ${property} in it resolves to the property's value (last properties element, last element of the name; text around the interpolation is dropped, exhibited), or to 0 with one message on stderr when there is no such property; a document that is not a project is an error.", "quantifier": "every pom", "why_tests_cant": "All dependency lists and version requirement strings.", "anchors": ["pkg/lockfile/parse-maven-lock.go"]}
{"id": "C56", "title": "go.mod replacements", "statement": "Required modules are reported with their version without the v prefix; replace directives, in turn, substitute what each requirement stands for: those of a version when the requirement is of that version, those without a version when its current path matches. A requirement that no directive is about is kept and one that exactly one is about becomes the replacement unless a later directive is about the replacement's path; so a directive for a module that is not required can have an effect and a directive for a version does not always win (both exhibited); duplicates are merged.", "quantifier": "every set of require/replace directives and iteration order", "why_tests_cant": "All directive sequences.", "anchors": ["pkg/lockfile/parse-go-lock.go"]}
{"id": "C57", "title": "Gradle lockfiles", "statement": "Each line group:artifact:version[=configurations] yields that package; comments and the empty= line are skipped; malformed lines are skipped without losing others.", "quantifier": "every gradle lockfile", "why_tests_cant": "All lines.", "anchors": ["pkg/lockfile/parse-gradle-lock.go"]}
{"id": "C58", "title": "mix.lock", "statement": "Each dependency line yields its name and its third field as version and fourth as commit, or third field as commit for :git dependencies.", "quantifier": "every mix.lock", "why_tests_cant": "All lines.", "anchors": ["pkg/lockfile/parse-mix-lock.go"]}
{"id": "C59", "title": "bun.lock tuples", "statement": "name@version, @scope/name@version, git (#commit) and file: tuples yield the right name, version and commit; non-string tuples are skipped.", "quantifier": "every tuple", "why_tests_cant": "All strings.", "anchors": ["pkg/lockfile/parse-bun-lock.go"]}
{"id": "C60", "title": "NuGet and Pipenv lockfiles", "statement": "Every package of every framework (NuGet) or of default and develop (Pipenv) is reported once per name and version; unsupported NuGet lockfile versions are rejected.", "quantifier": "every lockfile and iteration order", "why_tests_cant": "All maps.", "anchors": ["pkg/lockfile/parse-nuget-lock.go", "pkg/lockfile/parse-pipenv-lock.go"]}
{"id": "C61", "title": "List-shaped lockfiles", "statement": "Cargo, Composer, PDM, Poetry, Pubspec, pylock, renv and uv lockfiles yield one package per entry with the same name, version and commit (tags are not commits for Composer), except root entries (pylock, uv) and non-CRAN renv packages.", "quantifier": "every decoded lockfile", "why_tests_cant": "All entry lists.", "anchors": ["pkg/lockfile/parse-cargo-lock.go", "pkg/lockfile/parse-composer-lock.go", "pkg/lockfile/parse-pdm-lock.go", "pkg/lockfile/parse-poetry-lock.go", "pkg/lockfile/parse-pubspec-lock.go", "pkg/lockfile/parse-pylock.go", "pkg/lockfile/parse-renv-lock.go", "pkg/lockfile/parse-uv-lock.go"]}
{"id": "C62", "title": "Commit extraction from resolutions", "statement": "From a git-like resolution url (git://, ssh://, git+ssh://, git+https://, https://...git#, codeload, #commit:, github:/gitlab:/bitbucket: shorthands) exactly the trailing commit is extracted; a plain registry url yields none.", "quantifier": "every resolution of these shapes", "why_tests_cant": "All strings.", "anchors": ["pkg/lockfile/parse-yarn-lock.go: tryExtractCommit"]}
{"id": "C63", "title": "Regexp cache is race free", "statement": "Under every interleaving, every call for an expression returns a regexp compiled from that expression, and all calls for one expression return the same object.", "quantifier": "every interleaving of any number of callers", "why_tests_cant": "All interleavings.", "anchors": ["internal/cachedregexp/regex.go: MustCompile"]}
{"id": "C64", "title": "Crashes on malformed lockfiles are characterised", "statement": "The parsers crash only on: a JSON null document, an npm v1 alias version without '@', a one-byte Pipenv version, an empty bun tuple, a pnpm path that is a bare scope; on every other input they return normally.", "quantifier": "every lockfile", "why_tests_cant": "All inputs.", "anchors": ["pkg/lockfile/parse-npm-lock.go", "pkg/lockfile/parse-pipenv-lock.go", "pkg/lockfile/parse-bun-lock.go", "pkg/lockfile/parse-pnpm-lock.go"]}
{"id": "C65", "title": "Text reports agree with the data", "statement": "The text report says that no vulnerabilities were found iff the report has none, otherwise the announced number is the number of listed advisory lines; ignored ones are counted but not listed.", "quantifier": "every report", "why_tests_cant": "All reports.", "anchors": ["internal/reporter/report.go"]}
{"id": "C66", "title": "Every error is surfaced", "statement": "Every error message goes to stderr in either mode and makes a run that would otherwise exit 0 exit 127; an API failure while checking one lockfile does not stop the other databases or lockfiles from being checked.", "quantifier": "every run", "why_tests_cant": "All failure combinations.", "anchors": ["internal/reporter/reporter.go: PrintErrorf", "main.go: run, check"]}
{"id": "C67", "title": "AffectsEcosystem is exact", "statement": "OSV.AffectsEcosystem(e) holds iff some affected entry names exactly the ecosystem e (no suffix rule).", "quantifier": "all advisories and ecosystems", "why_tests_cant": "needs every number and position of affected entries", "anchors": ["pkg/database/osv.go AffectsEcosystem"]}
{"id": "C68", "title": "Checks crash only on unparseable versions", "statement": "Evaluating a range for a package crashes exactly if the range is an ECOSYSTEM or SEMVER one with events and either the package's version is not parseable for its ecosystem, or the sorting algorithm compares an event whose version is not parseable with another one, neither being introduced at 0. So deciding whether an advisory affects a package crashes only if the advisory has an entry for that package with such a range; a version that cannot be parsed really crashes the program (exhibited).", "quantifier": "all advisories, packages, version libraries and sorting algorithms", "why_tests_cant": "absence of a crash on every other input", "anchors": ["pkg/database/osv.go containsVersion", "pkg/database/osv.go IsAffected"]}
{"id": "C69", "title": "Command lines mean what they say", "statement": "A command line is accepted exactly if it consists of flags (-name or --name; switches optionally with =value; the others with =value or the next argument), each known and with a value it admits (booleans as 1/t/true.., integers as in Go programs within 64 bits), followed by nothing, by -- or by a first argument that is not a flag; the remaining arguments are the paths, unchanged. Of a flag given repeatedly the last counts, --ignore accumulates, and flags not given have their defaults (--use-dbs and --use-api depending on OSV_DETECTOR_PREFER_API). Every other command line is refused before anything is done, with exit code 0 for -h/-help and 2 otherwise, and 2 is never the exit code of anything else. Every combination of options with a 64-bit batch size can be asked for. A flag after the first path is not read as a flag (exhibited).", "quantifier": "all argument lists (any bytes), environments and worlds", "why_tests_cant": "exact language accepted, over all argument lists", "anchors": ["main.go run", "main.go stringsFlag.Set", "main.go preferAPI"]}
{"id": "C70", "title": "End to end: clean exits miss nothing, findings have grounds", "statement": "If a checking run exits with 0 or 1, then for every lockfile it reads, every database (zip or dir) in use for that lockfile, every advisory that database is bound to hold (in the archive the server or cache gives, respectively in a .json file below the directory) which is not withdrawn and affects one of the lockfile's packages: that advisory, or one related to it by ID or alias, is listed for that package in a report, as ignored exactly if its ID is in the ignores that apply. So exit 0 means each such advisory is ignored. Exit 1 means there is a lockfile, a package in it and an advisory not ignored that an API in use returned for it or that a database in use may hold and that affects it. Every advisory listed in any report of any run has such grounds and is listed as ignored exactly if its ID is in the ignores that apply to its lockfile. Offline the archive is the cached one; online, with an honest server and a cache written by earlier runs, it is the server's current one. This assumes no database URL in use contains a '#': without that an advisory can be missed (exhibited).", "quantifier": "all options, paths, lockfile contents, config files, caches, server answers, directory trees, version libraries, iteration orders and sorters", "why_tests_cant": "composes discovery, parsing, config lookup, loading, matching, deduplication, ignores and exit code over every possible input", "anchors": ["main.go run", "main.go adjustExtraDatabases", "main.go loadDatabases", "main.go check", "pkg/database/mem-check.go VulnerabilitiesAffectingPackage", "pkg/database/zip.go load", "pkg/database/dir.go load"]}
{"id": "C71", "title": "Advisories are read as their documents say and survive being written", "statement": "Decoding an advisory document gives, without error, exactly the advisory whose ID, aliases, summary, details, timestamps and affected entries (package, versions, ranges, events) are those the document states, keys compared ignoring case, members left out or null meaning empty, other members ignored; and decoding succeeds without error only for such documents (no object repeating a key). If some member has the wrong type, the other members are still read exactly, provided the timestamps can be read. An advisory written as JSON in a report reads back as the same advisory, and so does whatever was read from any bytes at all.", "quantifier": "all byte strings, JSON documents, advisories and timestamp parsers (for the way back: ones that read what they write)", "why_tests_cant": "documents nest without bound, members come in any order and combination, and the way back must hold for every text", "anchors": ["pkg/database/osv.go OSV", "pkg/database/osv.go Versions.MarshalJSON", "pkg/database/api-fetch.go Fetch", "pkg/database/dir.go load", "pkg/database/zip.go loadZipFile", "internal/reporter/reporter.go PrintJSONResults"]}
{"id": "C72", "title": "The JSON document of a run says exactly what was found", "statement": "With --json, a checking run that does not crash writes exactly one text to standard output: a JSON document whose \"results\" are the reports of the lockfiles checked, in order, each with its path, its format and its packages in order, each of these with its details (empty ones of commit, ecosystem and compareAs left out) and the advisories against it and the ignored ones, as documents that say what the advisories are. Such a document has only one reading, so different findings are printed as different documents. This is for names that are UTF-8: reports whose paths differ only in invalid bytes are printed alike (exhibited).", "quantifier": "all options, files, databases, server answers, version libraries and iteration orders; all advisories that can be read", "why_tests_cant": "the way back must hold for every text in every name, path and advisory field, after every possible run", "anchors": ["main.go run", "internal/reporter/reporter.go PrintJSONResults", "internal/reporter/report.go Report", "pkg/database/osv.go OSV", "pkg/database/osv.go Versions.MarshalJSON"]}
{"id": "C73", "title": "Map iteration order does not show in a run", "statement": "Two runs of the same command on the same files, databases and answers, which differ only in the order in which Go iterates over its maps, do the same: without --update-config-ignores the exit code, every text, request, check and file access are identical and in the same order; with it, the exit code, the texts in order, the checks in order, the files left behind and the cache are the same, and only the order in which the configs are written may differ (exhibited). Parsers, which iterate over maps of their own, may find the packages in any order provided no two different packages share name and version (that this is needed is exhibited).", "quantifier": "all options, files, databases, server answers, version libraries, sorting algorithms and pairs of iteration orders", "why_tests_cant": "a test run sees one of the orders the Go runtime happens to pick at random; the claim compares all of them", "anchors": ["main.go run", "main.go collectEcosystems", "main.go loadDatabases", "main.go writeUpdatedConfigs", "pkg/lockfile/parse.go ListParsers", "pkg/lockfile/parse.go Packages.Ecosystems"]}
{"id": "C74", "title": "Nothing in a database is dropped without a word", "statement": "When a zip database loads, every entry below its working directory whose name ends in .json is either in the database or named in a notice on stderr (\"Could not read NAME\" or \"NAME is not a valid JSON file\"), in order, and there are no other notices but those about the cache; so the number of vulnerabilities shown plus the number of notices is the number of such entries. A cache file left by an earlier load is complained of just if it was cut short. A dir database gives exactly one notice for each *.json file that cannot be read or is invalid, each directory called *.json and each directory that cannot be listed, in path order, then a final newline; each *.json file is loaded or has a notice. An advisory found not to affect a package gives one notice for each of its entries that names the package but has neither ranges nor versions.", "quantifier": "all archives, directory trees, cache contents, server answers, advisories, packages, version libraries and decoders", "why_tests_cant": "archives and trees have any size and any mixture of readable, unreadable and invalid files; that no file is lost is a claim about all of them", "anchors": ["pkg/database/zip.go load", "pkg/database/zip.go loadZipFile", "pkg/database/zip.go fetchZip", "pkg/database/dir.go load", "pkg/database/osv.go IsAffected"]}
{"id": "C75", "title": "JSON is read and written as the RFC says", "statement": "A file is taken as the JSON value v exactly if it is a text for v in the grammar of RFC 8259 (with invalid UTF-8 bytes and unpaired surrogates meaning U+FFFD) in which lists and objects are nested at most 10000 deep; so advisories (dir and zip databases, API answers) and cache files are read as their text says whatever its spacing and escapes, and anything else is rejected. A member of an object is read as a field exactly if its key is the field's name with letters in either case, the long s (U+017F) for an s or the Kelvin sign (U+212A) for a k. What is printed for a value is the compact text in which exactly the quotation mark, the backslash, <, >, &, control characters, U+2028, U+2029 and stray bytes are escaped. A cache file with a date and a base64 (RFC 4648, line breaks allowed) body gives that body and date offline, and online its etag and date go into the request; what is written after a download is an object with url, etag, date and the body in base64.", "quantifier": "all byte strings, all JSON values, all cache files, all server answers", "why_tests_cant": "the texts of a value are infinitely many (escapes, surrogates, nesting, spacing, byte sequences that are not UTF-8), and so are the texts that must be rejected", "anchors": ["pkg/database/zip.go fetchZip", "pkg/database/zip.go loadZipFile", "pkg/database/dir.go load", "pkg/database/api-fetch.go Fetch", "internal/reporter/reporter.go PrintJSONResults"]}
{"id": "C76", "title": "What a run says, in order", "statement": "Everything a run writes and does follows one grammar: complaints about paths and configs; the line 'Loaded the following OSV databases:' and for each database its name followed by its description or by why it failed; then for each lockfile, separated by empty lines, either one error message or a heading with path and number of packages, the config used with its number of ignores (or that they are skipped), a line per database used with its description, the questions put to APIs, the check and its report (or, with --list-packages, the listing); then with --update-config-ignores a sorted line per config with the number of IDs. With --json this goes to stderr and the document comes last. A listing has one line per package with ecosystem or <unknown>, name, version and commit if any; as JSON it is a document from which exactly the lockfiles can be read back.", "quantifier": "all arguments, files, databases, servers, and orders of map iteration", "why_tests_cant": "the text depends on any number of lockfiles, configs and databases and on which of them fail; snapshot tests fix a few combinations", "anchors": ["main.go run", "main.go loadDatabases", "main.go writeUpdatedConfigs", "main.go describeDB", "internal/reporter/reporter.go", "pkg/lockfile/parse.go String"]}
{"id": "C77", "title": "The other lockfiles do not matter", "statement": "A lockfile checked in two runs that differ only in the paths given (nothing else changing meanwhile, configs in use, no database failing) is checked with the same config and ignores against the same databases, and each answers the same, although it was loaded with other package names to keep and had been asked about other lockfiles before. So every package lists the same advisories, or related ones; if the databases are also asked in the same order, the report is the same. With nothing ignored, a run over two sets of paths therefore exits 1 iff a run over one of them does. With ignores this is false: the order of the databases depends on the other lockfiles, and with it which of several related advisories counts, so two lockfiles may pass one by one and fail together.", "quantifier": "all sets of paths, files, configs, databases (zip, dir and API) and flags", "why_tests_cant": "it relates runs over arbitrary sets of lockfiles; the databases are filtered by and reordered while checking all of them", "anchors": ["main.go run", "main.go loadDatabases", "main.go uniqueDBConfigs", "pkg/database/mem-check.go", "pkg/database/load.go"]}
{"id": "C78", "title": "After a complete run, no network is needed", "statement": "If a run loaded every database it wanted, none of them an API, then the same run with --offline, started with the caches the first one left, makes no request and otherwise does and writes exactly the same: the same output on both streams in the same order, the same checks and reports, the same config files, the same exit code; it leaves the caches alone. Downloads must carry an etag or a date (readable as text), and where two databases share an archive, the server must answer 304 for the copy just downloaded. Without an etag and date this is false: nothing is kept and the offline run exits 127.", "quantifier": "all arguments, flags, files, configs, servers, caches at the start, numbers of databases, and databases that share an archive", "why_tests_cant": "it relates two whole runs through the cache files, for every combination of fresh downloads, 304s over older caches and archives shared by several databases", "anchors": ["pkg/database/zip.go fetchZip", "pkg/database/zip.go cachePath", "main.go loadDatabases", "main.go run"]}
{"id": "C79", "title": "Runs that ask an API report what its server lists", "statement": "In a run with --use-api (or an api database in a config), if the exit code is 0 or 1, every ID that the server lists for a package, in usable answers to the batches about the lockfile, is accounted for: the details the server sent for it (or the ID alone if it sent none about it), or an advisory related to those, is in the lockfile's report at that package, as ignored exactly if its ID is in the ignores. So exit code 0 means all of them are ignored. Conversely every advisory reported, however the run exits, was listed by such a server for that package, with those details, or is held by another database in use and affects the package. If some batch is not answered usably (no answer, status other than 200, unreadable or not JSON, wrong number of results) an error is written and the exit code is 127, or 1 if something was found.", "quantifier": "all servers (answers to every request), all orders in which requests are answered, batch sizes, lockfiles, configs, flags, ignores, and other databases in use", "why_tests_cant": "the requests are made concurrently and answered in any order, and the claim runs from the bodies the server sends to the exit code through batching, decoding, fetching, deduplication and ignores", "anchors": ["main.go run", "pkg/database/api-check.go APIDB.Check", "pkg/database/api-fetch-all.go APIDB.FetchAll", "internal/reporter", "pkg/database/api.go NewAPIDB"]}
{"id": "C80", "title": "Everything a run says about unusable input, and where", "statement": "Besides its results and errors a run writes to stderr only: what a parser says about a file given to the run; right after it starts to load a zip database, that its cache cannot be parsed; after the request, that the cache cannot be written, and one notice for each advisory file of the archive or directory that is not loaded into the database (cannot be read or is not valid), in the order of the archive or of the paths; and, while a lockfile is checked, that an advisory of a loaded database has neither ranges nor versions in an entry for one of its packages. All that the parsers say is written. If the exit code is 0 or 1, every advisory of a database in use that is not withdrawn and names a package listed, but only with entries that have neither ranges nor versions, is named. A cache that cannot be written is left as it was. Notices change nothing else: without them (and when caches can be written) the run does the same steps, and an advisory that cannot be read does not make the exit code non-zero.", "quantifier": "all files, archives, directories, caches (readable or not, writable or not), servers, flags, configs, parsers' messages and error texts, including runs that crash", "why_tests_cant": "the notices come from four packages at different depths and interleave with the output; the claim is that nothing else is written and nothing is left out, for every archive and lockfile", "anchors": ["main.go run", "pkg/database/zip.go loadZipFile, fetchZip", "pkg/database/dir.go DirDB.load", "pkg/database/osv.go Affected.isAffected", "pkg/database/mem-check.go VulnerabilitiesAffectingPackage", "pkg/lockfile"]}
{"id": "C81", "title": "Ignoring more only moves advisories from found to ignored", "statement": "Two runs that differ only in --ignore and --no-config-ignores both finish or both crash; they read, load, request, check and rewrite the same, and write the same but for the results, the document and (if --no-config-ignores differs) the line about the config's ignores. For every package of every lockfile both divide one and the same list of advisories into found and ignored. What --update-config-ignores leaves in every file is the same. If the second run ignores at least what the first does, then per package what it finds is what the first found less what is ignored, what it ignores includes what the first ignored, nothing appears or disappears, and its exit code is the same, or 1 became 0, or 1 became 127 because an error message was written too.", "quantifier": "all flags, configs, lockfiles, databases, servers, caches, lists of IDs to ignore, map orders", "why_tests_cant": "a relation between pairs of runs for every input; deduplication by aliases, in-place reordering of databases, the seen sets and the exit code could each depend on what is ignored", "anchors": ["main.go run", "main.go transposePkgResults", "main.go writeUpdatedConfigs", "internal/reporter/report.go HasKnownVulnerabilities", "pkg/database/osvs.go Includes, Unique"]}
{"id": "C82", "title": "JSON files are refused exactly when they are not JSON of the declared type", "statement": "For each JSON lockfile format (npm, NuGet, Pipenv, bun after jsonc, composer, renv), for the responses of an API, for advisory files and for the cache: the parse error is reported if and only if the content is no JSON text, or some declared field, at whatever depth and in whatever case its key is spelled, holds a value of a wrong kind. null fits everywhere; undeclared fields hold anything. An int is a number of digits only, with an optional minus, from -2^63 to 2^63-1; a byte one from 0 to 255; a number in an untyped list must round to a finite float64; a cache body is base64 or a list of bytes; a timestamp is what RFC 3339 accepts.", "quantifier": "all file contents, all numbers of any length, all map orders", "why_tests_cant": "the boundary between accepted and refused runs through every declared field, every kind of value and the limits of three numeric types", "anchors": ["pkg/lockfile/parse-npm-lock.go", "pkg/lockfile/parse-nuget-lock.go", "pkg/lockfile/parse-pipenv-lock.go", "pkg/lockfile/parse-bun-lock.go", "pkg/lockfile/parse-composer-lock.go", "pkg/lockfile/parse-renv-lock.go", "pkg/database/api-check.go", "pkg/database/api-fetch.go", "pkg/database/zip.go", "pkg/database/osv.go"]}
{"id": "C83", "title": "A report that cannot be printed as JSON only costs the document", "statement": "With --json the last thing a run does, even one that panics, is to print the document on stdout or to write on stderr why it cannot be printed; nothing else goes to stdout. The document is printed if and only if json.Marshal accepts every advisory listed, found or ignored; otherwise the message is that of the first it refuses, in the order of the document. All steps before are the same, and so is the exit code. With --list-packages the document is always printed. It is not so that an error message means a non-zero exit code: a run can exit 0 with nothing on stdout.", "quantifier": "all runs, options, file systems, databases, answers and errors of json.Marshal (caches that can be written)", "why_tests_cant": "it needs an advisory that is read but cannot be printed, somewhere among all that a run lists", "anchors": ["internal/reporter/reporter.go", "main.go"]}
{"id": "C84", "title": "More advisories and more packages never hide a finding", "statement": "Take two runs that check lockfiles against zip and directory databases, where the second has at least the advisories of the first in each database and at least the packages of the first in each lockfile, and exits 0 or 1. Then whatever the first run lists for a package of a lockfile, found or ignored, is still listed for it by the second: the advisory itself, one with the same ID or a shared alias, or one related to such a one. So without ignores exit code 1 stays 1. (With ignores it does not: an added advisory whose ID is ignored can stand for one that is not.)", "quantifier": "all environments, databases, lockfiles, options, caches, sorting functions and map orders", "why_tests_cant": "relates two runs over all databases and all advisories that may be added at any place in them; aliasing makes the effect of an addition depend on the order of the archive", "anchors": ["pkg/database/mem-check.go Check", "pkg/database/osv.go IsAffected", "internal/reporter/report.go", "main.go run"]}
{"id": "C85", "title": "From the bytes of lockfiles and advisories to the report and the exit code", "statement": "If a run that checks lockfiles exits 0 or 1, then for every package that the bytes of a lockfile list (blocks of a yarn.lock, lines of a gradle.lockfile, sections of a Gemfile.lock, entries of the JSON, TOML, YAML and XML lockfiles, requirements reachable through includes, ...) and every file with the suffix .json of a directory or archive database in use whose text is a JSON document for an advisory that is not withdrawn and affects the package, a report accounts for the advisory; with exit code 0 it is ignored, itself or through a related one. Conversely whatever is reported comes from such a file (or the API database), for a package that the bytes list. Parse gives exactly the packages that the bytes of a lockfile list, for each kind of lockfile.", "quantifier": "all contents of lockfiles, archives, directories and configs, all options, caches, servers, sorting functions and map orders", "why_tests_cant": "connects arbitrary bytes of lockfiles and advisories through parsing, JSON decoding, ranges, aliasing and ignores to the exit code; tests fix a few fixtures for each of the steps", "anchors": ["pkg/lockfile/parse.go Parse", "pkg/lockfile/parse-*.go", "pkg/database/zip.go", "pkg/database/dir.go", "pkg/database/osv.go", "main.go run"]}
{"id": "C86", "title": "A run crashes only for a known reason, and each reason does crash it", "statement": "If a run ends in a Go panic instead of an exit code, then a parser crashed on one of the lockfiles it was given (the document null, an npm alias without version, ... as in C64), or the server of a zip database answered 304 though nothing usable was cached, or an advisory that is not withdrawn has an entry about a package of a lockfile with a range whose events, or the version of the package, cannot be compared. In all other cases the run returns an exit code. Conversely a crashing parser always crashes the run once the config of the lockfile can be read (also with --list-packages), an answer 304 without a usable cache file always does, and a version that cannot be compared with the first range of the first entry about the package is never passed over: the run does not exit 0 or 1.", "quantifier": "all files, configs, options, caches, servers, databases, advisories, sorting functions and map orders", "why_tests_cant": "absence of other panics over all inputs (index out of range, nil maps and pointers in run, the configs, the databases, batching, the transposition of results) cannot be shown by examples; the panics that remain need odd servers or data that the fixtures lack", "anchors": ["main.go run", "pkg/lockfile/parse.go Parse", "pkg/database/zip.go fetchZip", "pkg/database/osv.go containsVersion", "pkg/database/api-check.go Check"]}
{"id": "C87", "title": "A run touches nothing it was not pointed at", "statement": "Every step of a run, whether it finishes or crashes, is one its flags, lockfiles and configs name. Configs are looked for only at --config or, without it, as .osv-detector.yml/.yaml in the directories of the lockfiles, and not with --no-config. Databases are loaded only if --use-api, --use-dbs (one per ecosystem of a package in a lockfile) or a config (without --no-config-databases) asks for them. An archive is requested only from the URL of such a zip database, at most once per database and with no more than the etag and date cached for it; an API is asked only if such a database names it, and only about the packages of a given lockfile; neither happens with --offline. A cached archive changes only if it was requested. A config changes only with --update-config-ignores, only at a place a config was read from, and only in its ignores. With --no-config or --no-config-databases only the servers of osv.dev are asked; with --list-packages, --version or --list-ecosystems nothing is asked, read or changed. (An archive shared by two databases is requested twice.)", "quantifier": "all flags, lockfiles, configs, caches, servers, file systems, sorting functions and map orders; finished and crashed runs", "why_tests_cant": "that nothing else is requested, read or written is a statement about all runs; tests look for the effects they expect, not for others", "anchors": ["main.go run", "main.go adjustExtraDatabases", "main.go loadDatabases", "main.go writeUpdatedConfigs", "internal/configer/load.go Find", "pkg/database/zip.go fetchZip", "pkg/database/api.go NewAPIDB"]}
{"id": "C88", "title": "Editing ignores changes only what is ignored; updating twice changes nothing more", "statement": "If configs are edited only in the IDs they ignore, a run does the same as before (same requests, loads, checks, messages, files written, and the same answers per package) except for how the advisories found for each package are divided into found and ignored, the results printed, and the line saying how many IDs a config ignores. If the configs ignore more, per package fewer advisories are found and more ignored, none appears or disappears, and the exit code is the same or goes from 1 to 0 (127 if an error was reported). Therefore running with --update-config-ignores again, on the files the first run left and with databases that answer the same, crashes only if the first run did, rewrites the same configs and leaves every file as it was; what it still finds belongs to lockfiles without a config, or with one that cannot be written; if there are none it exits with 0 unless an error is reported. (With --no-config-ignores, or for lockfiles without a config, the second run may find as much as the first.)", "quantifier": "all flags, lockfiles, configs, IDs, caches, servers, file systems, sorting functions and map orders; finished and crashed runs; provided the configs written can be read back", "why_tests_cant": "that a file is a fixed point, and that nothing else differs between two runs, concerns all pairs of runs; tests compare a few files after one run", "anchors": ["main.go run", "main.go writeUpdatedConfigs", "internal/configer/update.go UpdateWithIgnores", "internal/configer/load.go Load", "main.go transposePkgResults"]}
{"id": "C89", "title": "Archives kept in the cache do not show", "statement": "Two runs that are online and differ only in the archives kept in their caches end the same way (same exit code, or both crash), write the same output and the same files, check and report the same, and ask for the same URLs in the same order; only the conditions (If-None-Match, If-Modified-Since) of the requests differ. This holds if the server is steady (a conditional request gets the unconditional answer or 304) and each cached archive that the server confirms with 304 is what it delivers. Every cache that such a run leaves satisfies this, as does the empty one, so a run after any other runs, of other files with other options, is like a run with an empty cache; and updating ignores twice leaves nothing to report also when the second run uses the first run's cache. (A cached archive whose body was changed but whose etag was not does show: exit code 127 instead of 1.)", "quantifier": "all pairs of caches (including broken ones), flags, files, databases, answers of steady servers, sorting functions and map orders; finished and crashed runs", "why_tests_cant": "tests check single fetches with one prepared cache; that no cache content influences a whole run concerns all pairs of runs", "anchors": ["pkg/database/zip.go fetchZip", "pkg/database/zip.go load", "main.go loadDatabases", "main.go run"]}
{"id": "C90", "title": "On Windows, lockfiles are read from the drive they are on", "statement": "An argument that is an absolute Windows path (X:\\... or X:/...) is taken as a path, not as a parser named X; an argument parser:path with the name of a supported parser (or csv-file, csv-row) is always split at its first colon, also if the path has a drive. Every lockfile found is afterwards read from exactly the (cleaned) path where it was found, with the parser named in its argument or else the one of --parse-as, although parser and path travel through one string joined by a colon. On other platforms this is what a run does. (A path relative to a drive's current directory, C:go.mod, is read as go.mod by an unknown parser C.)", "quantifier": "all arguments, parsers, paths without a leading colon, directories' contents, every filepath.Clean, every filepath.IsAbs that accepts drive roots and accepts only paths with a colon second or a slash first", "why_tests_cant": "the Windows branch is not run on other platforms, and encoding then decoding concerns all names and paths", "anchors": ["main.go parseLockfilePathWithParseAs", "main.go findAllLockfiles", "main.go parseLockfile", "main.go readAllLockfiles"]}
{"id": "C91", "title": "How a run tells what it does has no influence on what it does", "statement": "With --json a run does exactly what it does without: the same configs read and written, databases loaded, requests, checks, errors, files and cache afterwards, and the same exit code (or it crashes as well). What it prints is the same text, moved to stderr, except that results are not printed one by one; instead one document is printed last, made of the same list of results that are printed as text without --json. More generally, whatever the colours, the texts of errors, the way advisories are printed and the version text are, and with or without --json, a run takes the same steps, reports as many errors at the same points, and ends with the same files and exit code; in particular no error text can be mistaken for a success or the other way round, although lines about updated configs are told apart by how they start.", "quantifier": "all flags, lockfiles, configs, databases, caches, servers, colour functions, error texts and sorting functions; finished and crashed runs", "why_tests_cant": "snapshot tests compare single outputs; that no output feeds back into behaviour concerns all pairs of runs", "anchors": ["internal/reporter/reporter.go PrintErrorf", "internal/reporter/reporter.go PrintTextf", "internal/reporter/reporter.go PrintResult", "internal/reporter/reporter.go PrintJSONResults", "main.go run", "main.go writeUpdatedConfigs"]}
{"id": "C92", "title": "--batch-size does not change what is found", "statement": "If a server answers usably and for each package of a query as if it were asked alone, then checking packages with batches of one size gives exactly what checking them with batches of another gives (sizes from 1 up): the same advisories for the same packages, with the IDs the server lists, after asking for the same details the same number of times. Two runs that differ only in --batch-size then take the same steps, print the same but for the size told after each API database, and end with the same results, errors, files, cache and exit code (or both crash). This does not hold for sizes below 1, which are an error, nor for servers that look at the whole batch.", "quantifier": "all batch sizes from 1, packages, flags, lockfiles, configs, databases, caches, and servers that answer each package alone", "why_tests_cant": "tests fix one batch size and few packages; this is about every way of cutting every list of packages", "anchors": ["pkg/database/api-check.go checkBatch", "pkg/database/api-check.go Check", "pkg/database/api.go NewAPIDB", "main.go loadDatabases", "main.go run"]}
{"id": "C93", "title": "Where a JSON listing has null instead of a list of packages", "statement": "With --list-packages --json the document lists every readable lockfile with its path, parser and packages. The member packages is null exactly for lockfiles without packages that were read as Gemfile.lock, mix.lock, gradle.lockfile, buildscript-gradle.lockfile, csv-row or csv-file; in all other cases it is a list. Whether null or an empty list, a document has one reading. Without --list-packages the document has lists only. So a consumer of listings cannot rely on packages being a list.", "quantifier": "all lockfiles, arguments, flags, parsers and directories", "why_tests_cant": "whether a slice is nil shows only for empty lockfiles, separately for each parser; snapshots list lockfiles that have packages", "anchors": ["internal/reporter/reporter.go PrintJSONResults", "pkg/lockfile/parse.go Lockfile", "pkg/lockfile/parse.go Parse", "pkg/lockfile/csv.go fromCSV", "pkg/lockfile/parse-gemfile-lock.go ParseGemfileLock", "pkg/lockfile/parse-gradle-lock.go ParseGradleLock", "pkg/lockfile/parse-mix-lock.go ParseMixLock", "main.go check"]}
{"id": "C94", "title": "The order of the paths does not matter, nor giving one twice", "statement": "When one run is given all the paths of another run and perhaps more (any order, any repetition; both runs exit 0 or 1), every lockfile checked in the other is checked in it as well. With nothing ignored and nothing else changing meanwhile, it exits 1 if the other does; so two runs given the same set of paths exit alike, whatever the order of the paths and however often each is given. With ignores this is false: the order of the paths decides the order of the databases and with it which of several related advisories counts, so swapping two lockfiles may turn exit code 0 into 1.", "quantifier": "all lists of paths (directories and files, with or without a parser prefix), files, configs, databases and flags but --no-config and csv-row", "why_tests_cant": "it relates two whole runs over arbitrary lists of paths; the order in which databases are loaded and asked follows from all of the lockfiles and their configs", "anchors": ["main.go run", "main.go findLockfiles", "main.go uniqueDBConfigs", "main.go loadDatabases", "pkg/database/mem-check.go"]}
{"id": "C95", "title": "--no-config-ignores and --no-config-databases stand for configs without ignores and databases", "statement": "A run with --no-config-ignores and/or --no-config-databases takes the same steps, in the same order, asks the same databases, prints the same (on the same streams), writes the same files and ends with the same exit code (or crash) as the run without these flags in a world where every config ignores nothing, respectively lists no databases except invalid ones (whose errors are still reported). Only the line naming the config differs: '(skipping any ignores)' instead of '(0 ignores)'. For --no-config-databases this asks that --no-config, --list-packages and --update-config-ignores are not given; with --no-config it is false: databases of earlier lockfiles are then left out too.", "quantifier": "all files, configs, databases, caches, paths and all other flags (for --no-config-databases without --no-config, --list-packages and --update-config-ignores)", "why_tests_cant": "it relates two whole runs over arbitrary worlds, step by step; the tests run a few configs with each flag and do not compare with a world whose configs are empty", "anchors": ["main.go run", "main.go adjustExtraDatabases", "main.go writeUpdatedConfigs", "internal/configer/load.go newConfig", "internal/configer/load.go Find"]}
{"id": "C96", "title": "--parse-as and directories are shorthand", "statement": "A run with --parse-as X is identical (every step, all output, files, cache and exit code, crashes included) to the run without --parse-as in which every path that names no parser is given as X:path; this holds whatever the paths are, unreadable ones included. A run whose paths can all be read is identical to the run that is given the lockfiles it finds one by one, in that order, each with its parser (parser:path). Rows of CSV are excluded: csv-row as the parser of a path does not turn the path into a row.", "quantifier": "all worlds, starting states, paths and flags, with a --parse-as value that is known and nothing parsed as csv-row; for the second part, at least one file is found and those found are files when given by their cleaned path", "why_tests_cant": "it equates whole runs over arbitrary directories, prefixes and flags; the tests compare the output of single command lines", "anchors": ["main.go findAllLockfiles", "main.go findLockfiles", "main.go parseLockfilePathWithParseAs", "main.go parseLockfile", "main.go run"]}
{"id": "C97", "title": "The IDs given with --ignore are a set", "statement": "Two runs that differ only in the order in which --ignore lists its IDs, and in how often each is given, take the same steps in the same order, print the same on the same streams, write the same files and cache and end with the same exit code (or crash).", "quantifier": "all worlds, files, configs, databases, caches and flags, and all lists of IDs with the same members", "why_tests_cant": "it relates two whole runs over arbitrary lists of IDs and advisories that share aliases; the tests give each list of IDs in one order", "anchors": ["main.go run", "main.go check", "main.go transposePkgResults"]}
