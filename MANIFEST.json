{
 "claims": [
  {
   "property": "C01",
   "status": "proved",
   "theorems": [
    "C01_range_semantics"
   ],
   "note": ""
  },
  {
   "property": "C02",
   "status": "proved",
   "theorems": [
    "C02_event_order_irrelevant",
    "C02_check_only_reorders",
    "C02_ties_refuted"
   ],
   "note": "Order independence proved for ranges without ties between an introduced event and an ending event; C02_ties_refuted shows the condition is needed."
  },
  {
   "property": "C03",
   "status": "proved",
   "theorems": [
    "C03_honoured_ranges",
    "C03_any_range_refuted"
   ],
   "note": "The code stops at the first range of another type; the exact rule is proved and the documented rule (any range) is refuted."
  },
  {
   "property": "C04",
   "status": "proved",
   "theorems": [
    "C04_is_affected"
   ],
   "note": ""
  },
  {
   "property": "C05",
   "status": "proved",
   "theorems": [
    "C05_ecosystem_suffix",
    "C05_transitivity_refuted"
   ],
   "note": "Exact relation, reflexive and symmetric; transitivity refuted."
  },
  {
   "property": "C06",
   "status": "proved",
   "theorems": [
    "C06_normalised_name",
    "C06_pep503_idempotent",
    "C06_pypi_names_match",
    "C06_requirements",
    "C06_requirements_extras"
   ],
   "note": "Both sides normalise to the PEP 503 name; the requirements.txt side first drops everything from '['. Lower-casing is ASCII."
  },
  {
   "property": "C07",
   "status": "proved",
   "theorems": [
    "C07_check_sound_complete",
    "C07_suffixed_never_reported",
    "C07_suffixed_complete_refuted"
   ],
   "note": "For packages whose ecosystem has no suffix. For suffixed ecosystems nothing is ever reported (C07_suffixed_never_reported), so completeness is refuted there."
  },
  {
   "property": "C08",
   "status": "proved",
   "theorems": [
    "C08_index_aligned",
    "C08_reported_functional",
    "C08_one_result_per_package"
   ],
   "note": ""
  },
  {
   "property": "C09",
   "status": "proved",
   "theorems": [
    "C09_prefilter_irrelevant"
   ],
   "note": ""
  },
  {
   "property": "C10",
   "status": "proved",
   "theorems": [
    "C10_check_never_withdrawn",
    "C10_vulnerabilities_listing"
   ],
   "note": ""
  },
  {
   "property": "C11",
   "status": "proved",
   "theorems": [
    "C11_unique",
    "C11_dedup_meaning",
    "C11_dedup_functional",
    "C11_idempotent",
    "C11_related_symmetric",
    "C11_includes",
    "C11_transitivity_refuted"
   ],
   "note": "Exact deduplication; alias sharing is not transitive so the outcome depends on order (refutation)."
  },
  {
   "property": "C12",
   "status": "proved",
   "theorems": [
    "C12_describe",
    "C12_truncate",
    "C12_shortened_functional",
    "C12_only_longer_text_is_cut_refuted",
    "C12_whole_characters_refuted"
   ],
   "note": "Exact shortening rule; the doc comment's 'longer than the limit' and whole-character cutting are refuted."
  },
  {
   "property": "C13",
   "status": "proved",
   "theorems": [
    "C13_history_independent"
   ],
   "note": ""
  },
  {
   "property": "C14",
   "status": "proved",
   "theorems": [
    "C14_batches",
    "C14_batches_functional",
    "C14_constructor"
   ],
   "note": ""
  },
  {
   "property": "C15",
   "status": "proved",
   "theorems": [
    "C15_batches_in_flight",
    "C15_details_in_flight",
    "C15_schedules_terminate",
    "C15_group_outcome",
    "C15_schedule_independent",
    "C15_some_execution",
    "C15_no_panic"
   ],
   "note": ""
  },
  {
   "property": "C16",
   "status": "proved",
   "theorems": [
    "C16_successful_check",
    "C16_answers_decoded",
    "C16_endpoints"
   ],
   "note": ""
  },
  {
   "property": "C17",
   "status": "proved",
   "theorems": [
    "C17_payload",
    "C17_query_functional"
   ],
   "note": ""
  },
  {
   "property": "C18",
   "status": "proved",
   "theorems": [
    "C18_errors_are_reported",
    "C18_error_is_of_a_batch",
    "C18_answers_good_or_bad"
   ],
   "note": ""
  },
  {
   "property": "C19",
   "status": "proved",
   "theorems": [
    "C19_fetched_once"
   ],
   "note": ""
  },
  {
   "property": "C20",
   "status": "proved",
   "theorems": [
    "C20_zip_offline_no_requests",
    "C20_run"
   ],
   "note": ""
  },
  {
   "property": "C21",
   "status": "proved",
   "theorems": [
    "C21_offline_uses_cache",
    "C21_offline_not_found",
    "C21_offline_writes_nothing"
   ],
   "note": ""
  },
  {
   "property": "C22",
   "status": "proved",
   "theorems": [
    "C22_cache_is_one_download",
    "C22_download_is_kept",
    "C22_current_archive"
   ],
   "note": ""
  },
  {
   "property": "C23",
   "status": "proved",
   "theorems": [
    "C23_torn_cache_is_no_cache"
   ],
   "note": ""
  },
  {
   "property": "C24",
   "status": "proved",
   "theorems": [
    "C24_failed_downloads",
    "C24_no_crash_refuted"
   ],
   "note": ""
  },
  {
   "property": "C25",
   "status": "proved",
   "theorems": [
    "C25_archive_entries",
    "C25_load_errors",
    "C25_functional",
    "C25_directory_boundary_refuted"
   ],
   "note": ""
  },
  {
   "property": "C26",
   "status": "proved",
   "theorems": [
    "C26_directory_advisories",
    "C26_failures",
    "C26_failure_kind",
    "C26_relative_path"
   ],
   "note": ""
  },
  {
   "property": "C27",
   "status": "proved",
   "theorems": [
    "C27_unique_configs",
    "C27_once_and_all",
    "C27_identifier",
    "C27_identifier_refuted"
   ],
   "note": ""
  },
  {
   "property": "C28",
   "status": "proved",
   "theorems": [
    "C28_entries",
    "C28_loadable",
    "C28_load_zip",
    "C28_load_api",
    "C28_load_dir"
   ],
   "note": ""
  },
  {
   "property": "C29",
   "status": "proved",
   "theorems": [
    "C29_found",
    "C29_errors",
    "C29_path",
    "C29_explicit"
   ],
   "note": ""
  },
  {
   "property": "C30",
   "status": "proved",
   "theorems": [
    "C30_update",
    "C30_writes_iff_readable",
    "C30_crash_safe_refuted"
   ],
   "note": ""
  },
  {
   "property": "C31",
   "status": "proved",
   "theorems": [
    "C31_accounted"
   ],
   "note": ""
  },
  {
   "property": "C32",
   "status": "proved",
   "theorems": [
    "C32_own_id",
    "C32_listed",
    "C32_alias_refuted"
   ],
   "note": ""
  },
  {
   "property": "C33",
   "status": "proved",
   "theorems": [
    "C33_outcome",
    "C33_zero",
    "C33_one",
    "C33_128"
   ],
   "note": ""
  },
  {
   "property": "C34",
   "status": "proved",
   "theorems": [
    "C34_written",
    "C34_only_on_request",
    "C34_next_package",
    "C34_next_clean"
   ],
   "note": "For a YAML library that reads back what it wrote and a config file that can be opened for writing."
  },
  {
   "property": "C35",
   "status": "proved",
   "theorems": [
    "C35_own_databases",
    "C35_shared_refuted"
   ],
   "note": "With --no-config and --no-config-databases together only the last lockfile's databases are used for all; C35_shared_refuted shows it."
  },
  {
   "property": "C36",
   "status": "proved",
   "theorems": [
    "C36_round_trip",
    "C36_run",
    "C36_argument"
   ],
   "note": ""
  },
  {
   "property": "C37",
   "status": "proved",
   "theorems": [
    "C37_discovery",
    "C37_listing_order",
    "C37_unlisted_refuted"
   ],
   "note": "A path that opens but cannot be stat-ed or listed is silently passed over; C37_unlisted_refuted shows it."
  },
  {
   "property": "C38",
   "status": "proved",
   "theorems": [
    "C38_stdout",
    "C38_reports",
    "C38_parses"
   ],
   "note": ""
  },
  {
   "property": "C39",
   "status": "proved",
   "theorems": [
    "C39_only_output",
    "C39_listed"
   ],
   "note": ""
  },
  {
   "property": "C40",
   "status": "proved",
   "theorems": [
    "C40_sorted",
    "C40_total"
   ],
   "note": ""
  },
  {
   "property": "C41",
   "status": "proved",
   "theorems": [
    "C41_listed",
    "C41_order_free",
    "C41_parsers",
    "C41_known"
   ],
   "note": "Ecosystems() is the sorted distinct list; every package Parse reports has the one ecosystem of its kind of lockfile, which is a known one."
  },
  {
   "property": "C42",
   "status": "proved",
   "theorems": [
    "C42_chosen",
    "C42_listed"
   ],
   "note": ""
  },
  {
   "property": "C43",
   "status": "proved",
   "theorems": [
    "C43_package",
    "C43_rejected"
   ],
   "note": ""
  },
  {
   "property": "C44",
   "status": "proved",
   "theorems": [
    "C44_text",
    "C44_malformed",
    "C44_rows",
    "C44_quoted",
    "C44_file",
    "C44_no_file"
   ],
   "note": ""
  },
  {
   "property": "C45",
   "status": "proved",
   "theorems": [
    "C45_terminates",
    "C45_exact",
    "C45_keys",
    "C45_success",
    "C45_error",
    "C45_clash_refuted"
   ],
   "note": "For any file system with finitely many paths and any include graph. Packages are keyed name@version; exactness is for versions without '@', the clash otherwise is exhibited."
  },
  {
   "property": "C46",
   "status": "proved",
   "theorems": [
    "C46_line",
    "C46_single",
    "C46_unconstrained",
    "C46_upper_refuted"
   ],
   "note": "C46_line gives the exact result for every line; C46_upper_refuted shows operators outside the four (<, ===) and a space before extras leak into name or version."
  },
  {
   "property": "C47",
   "status": "proved",
   "theorems": [
    "C47_continued",
    "C47_joined"
   ],
   "note": ""
  },
  {
   "property": "C48",
   "status": "proved",
   "theorems": [
    "C48_comment",
    "C48_skipped",
    "C48_lines",
    "C48_too_long"
   ],
   "note": "Includes the scanner: lines of either ending, and the 64 kB limit beyond which the file is rejected."
  },
  {
   "property": "C49",
   "status": "proved",
   "theorems": [
    "C49_all",
    "C49_exact",
    "C49_once",
    "C49_crash",
    "C49_twice_refuted"
   ],
   "note": "npm lockfile version 1: every dependency at every depth is reported with the name, version and commit its entry spells; once for each key; crash and duplicate cases characterised."
  },
  {
   "property": "C50",
   "status": "proved",
   "theorems": [
    "C50_packages",
    "C50_unique"
   ],
   "note": "npm lockfile versions 2 and 3: packages section decides the result."
  },
  {
   "property": "C51",
   "status": "proved",
   "theorems": [
    "C51_bun",
    "C51_renv",
    "C51_pubspec",
    "C51_maven",
    "C51_nuget",
    "C51_pipenv",
    "C51_go",
    "C51_requirements",
    "C51_nuget_exact",
    "C51_pipenv_exact",
    "C51_go_exact",
    "C51_npm",
    "C51_npm1",
    "C51_npm2",
    "C51_pnpm",
    "C51_pnpm_refuted",
    "C51_clash_refuted"
   ],
   "note": "For every file content and any two iteration orders the outcome (crash, error, packages) is the same, packages up to name@version and exactly when no two share a key; a clash is exhibited. A pnpm file which holds both a bare scope and a path without a slash crashes or fails depending on the order (refuted unconditionally, proved otherwise)."
  },
  {
   "property": "C52",
   "status": "proved",
   "theorems": [
    "C52_path",
    "C52_packages",
    "C52_fails",
    "C52_peers_refuted",
    "C52_scoped_peer_refuted",
    "C52_build_refuted"
   ],
   "note": "Statement narrowed to unscoped, unnested v6 peers; the refuted theorems show what goes wrong outside that."
  },
  {
   "property": "C53",
   "status": "proved",
   "theorems": [
    "C53_yarn",
    "C53_blocks",
    "C53_version",
    "C53_resolution",
    "C53_terminates",
    "C53_name",
    "C53_unread"
   ],
   "note": "Every block of a scanned yarn.lock other than the metadata and the project gives one package, with the first version line's value, the commit of the first resolution line and (for every header of the documented shapes) the first entry's name or alias target; the complaints on stderr are the names of the packages without a version. bufio.Scanner is modelled (Scan.v); net/url's parse is a parameter."
  },
  {
   "property": "C54",
   "status": "proved",
   "theorems": [
    "C54_gem",
    "C54_total",
    "C54_unique",
    "C54_usual",
    "C54_no_fatal",
    "C54_unread",
    "C54_spec",
    "C54_words_refuted"
   ],
   "note": "For every content: lines, sections and spec lines are described independently and shown total and unique. C54_words_refuted: isSourceSection uses Contains, so a package line with GIT, GEM, PATH or PLUGIN SOURCE in it starts a new section and loses the commit."
  },
  {
   "property": "C55",
   "status": "proved",
   "theorems": [
    "C55_maven",
    "C55_unread",
    "C55_document",
    "C55_version",
    "C55_range",
    "C55_property",
    "C55_in_place_refuted"
   ],
   "note": "XML tokenising is a parameter giving the element tree; how encoding/xml fills the structs is modelled. C55_in_place_refuted: text around ${property} is dropped."
  },
  {
   "property": "C56",
   "status": "proved",
   "theorems": [
    "C56_go",
    "C56_exact",
    "C56_unread",
    "C56_kept",
    "C56_replaced",
    "C56_unique",
    "C56_chain_refuted",
    "C56_specific_refuted"
   ],
   "note": "modfile.Parse is a parameter. The refutations show that directives chain, and that one for a version can be overridden by a later one for all versions, unlike in Go."
  },
  {
   "property": "C57",
   "status": "proved",
   "theorems": [
    "C57_gradle",
    "C57_unique",
    "C57_unread"
   ],
   "note": "Every line of every readable file."
  },
  {
   "property": "C58",
   "status": "proved",
   "theorems": [
    "C58_mix",
    "C58_unique",
    "C58_unread"
   ],
   "note": "Every line of every readable file."
  },
  {
   "property": "C59",
   "status": "proved",
   "theorems": [
    "C59_tuple",
    "C59_bun",
    "C59_crash"
   ],
   "note": "From the JSON value of the file (after the jsonc library, a parameter); C59_crash: an empty or null tuple panics, nothing else does."
  },
  {
   "property": "C60",
   "status": "proved",
   "theorems": [
    "C60_nuget",
    "C60_nuget_keys",
    "C60_nuget_version",
    "C60_pipenv",
    "C60_pipenv_keys"
   ],
   "note": "Exact for versions without '@' (C60_clash shows a clash otherwise); once per name@version in general. A one-byte Pipenv version panics."
  },
  {
   "property": "C61",
   "status": "proved",
   "theorems": [
    "C61_cargo",
    "C61_composer",
    "C61_pdm",
    "C61_poetry",
    "C61_pubspec",
    "C61_pylock",
    "C61_renv",
    "C61_uv"
   ],
   "note": "Composer and renv from the JSON value of the file; the TOML and YAML ones from the decoded entries (decoders are parameters)."
  },
  {
   "property": "C62",
   "status": "proved",
   "theorems": [
    "C62_shapes",
    "C62_unique",
    "C62_url",
    "C62_registry"
   ],
   "note": "The regular expressions are run by the modelled engine (Regex.v); a resolution of any git shape gives its trailing commit, any other is decided by its parsed url (net/url is a parameter) and a plain https registry url gives none."
  },
  {
   "property": "C63",
   "status": "proved",
   "theorems": [
    "C63_right",
    "C63_same",
    "C63_stays",
    "C63_ends"
   ],
   "note": "The cache under the interleavings of any number of callers."
  },
  {
   "property": "C64",
   "status": "proved",
   "theorems": [
    "C64_only",
    "C64_null",
    "C64_exact",
    "C64_bun_null",
    "C64_never",
    "C64_returns",
    "C59_crash",
    "C60_pipenv_keys",
    "C49_crash",
    "C52_fails"
   ],
   "note": "A crash has one of the listed causes, for every file and parser; null always crashes; which entries of a document do crash it is stated exactly by C59_crash, C60_pipenv_keys, C49_crash and C52_fails."
  },
  {
   "property": "C65",
   "status": "proved",
   "theorems": [
    "C65_none",
    "C65_count",
    "C65_flags",
    "C65_multiline_refuted"
   ],
   "note": ""
  },
  {
   "property": "C66",
   "status": "proved",
   "theorems": [
    "C66_stderr",
    "C66_exit",
    "C66_surfaced"
   ],
   "note": "That an API failure does not stop the other databases or lockfiles is part of C35_own_databases."
  },
  {
   "property": "C67",
   "status": "proved",
   "theorems": [
    "C67_affects_ecosystem"
   ],
   "note": ""
  },
  {
   "property": "C68",
   "status": "proved",
   "theorems": [
    "C68_crash_only_on_unparseable",
    "C68_never_crashes_refuted",
    "C68_range_crash"
   ],
   "note": ""
  },
  {
   "property": "C69",
   "status": "proved",
   "theorems": [
    "C69_accepted",
    "C69_refused",
    "C69_run",
    "C69_two",
    "C69_reachable",
    "C69_anywhere_refuted"
   ],
   "note": "Go's flag package and strconv.ParseInt/ParseBool are modelled; its usage text and messages on os.Stderr are not."
  },
  {
   "property": "C70",
   "status": "proved",
   "theorems": [
    "C70_accounted",
    "C70_clean",
    "C70_grounds",
    "C70_every",
    "C70_offline_archive",
    "C70_current_archive",
    "C70_fragment_refuted"
   ],
   "note": "API databases: what the API returns is taken as given (C14 to C19 cover it). Versions of the advisory and package must be parseable and the advisory's ranges well formed (checkable)."
  },
  {
   "property": "C71",
   "status": "proved",
   "theorems": [
    "C71_read",
    "C71_only",
    "C71_spoiled",
    "C71_written",
    "C71_again"
   ],
   "note": "Timestamps are a parameter (time.Time's JSON text); an object repeating a key is excluded where the converse is stated."
  },
  {
   "property": "C72",
   "status": "proved",
   "theorems": [
    "C72_document",
    "C72_one_reading",
    "C72_advisories",
    "C72_tells_apart",
    "C72_bytes_refuted"
   ],
   "note": "How an advisory is written is a parameter that must be faithful; C72_advisories shows the modelled encoder is. Assumes no database URL contains a '#' (as C70) and that advisories from APIs were decoded from JSON (sound)."
  },
  {
   "property": "C73",
   "status": "proved",
   "theorems": [
    "C73_same",
    "C73_update",
    "C73_parsers",
    "C73_writes_refuted",
    "C73_ties_refuted"
   ],
   "note": "Whole runs under two iteration orders: literally the same run (exit code, every event, files and cache) without --update-config-ignores, and with it the same exit code, texts, checks, files and cache. Parsers iterate over maps too: C73 asks that they find the same packages with no two different ones sharing name and version, which C51 gives per format. Refuted: that configs are written in the same order, and that ties between packages do not show."
  },
  {
   "property": "C74",
   "status": "proved",
   "theorems": [
    "C74_archive",
    "C74_count",
    "C74_cache",
    "C74_directory",
    "C74_directory_file",
    "C74_bare"
   ],
   "note": "What pkg/database writes to os.Stderr (Warnings.v), with the texts of errors as parameters. The notices are modelled where they arise (loading a zip or dir database, IsAffected); they are not part of the trace of whole runs."
  },
  {
   "property": "C75",
   "theorems": [
    "C75_read",
    "C75_limit",
    "C75_keys",
    "C75_keys_read",
    "C75_written",
    "C75_bytes",
    "C75_advisory",
    "C75_advisory_only",
    "C75_base64_read",
    "C75_base64_written",
    "C75_cache_offline",
    "C75_cache_online",
    "C75_cache_written"
   ],
   "status": "proved",
   "note": "C75_read, C75_keys and C75_written are equivalences with relations stated from the RFCs"
  },
  {
   "property": "C76",
   "status": "proved",
   "theorems": [
    "C76_story",
    "C76_numbers",
    "C76_lines",
    "C76_document",
    "C76_one_reading",
    "C76_line_ends_refuted"
   ],
   "note": "The trace of every run that ends follows a grammar (StorySpec.v) fixing what is written, where and in which order; error texts are a parameter."
  },
  {
   "property": "C77",
   "status": "proved",
   "theorems": [
    "C77_same",
    "C77_together",
    "C77_ignores_refuted"
   ],
   "note": "The world standing still (steady), comparable versions and ecosystem names without a dash before a colon are hypotheses; C77_ignores_refuted shows that the exit code law fails once something is ignored."
  },
  {
   "property": "C78",
   "status": "proved",
   "theorems": [
    "C78_same",
    "C78_undated_refuted"
   ],
   "note": "Cache paths are assumed different for different URLs (they are SHA-256 hashes), as in C22; etag/date and 304 hypotheses as in the statement; C78_undated_refuted shows the first is needed."
  },
  {
   "property": "C79",
   "status": "proved",
   "theorems": [
    "C79_accounted",
    "C79_clean",
    "C79_grounds",
    "C79_unanswered",
    "C79_executes"
   ],
   "note": "for a server that answers the same request the same way during the run; lockfiles of at most 2^62 packages"
  },
  {
   "property": "C80",
   "status": "proved",
   "theorems": [
    "C80_erased",
    "C80_told",
    "C80_load",
    "C80_reasons",
    "C80_parsed",
    "C80_mentioned",
    "C80_exit_refuted"
   ],
   "note": "FullRun.v repeats the control flow of Main.v with the notices of Warnings.v in place; what a parser says is a parameter by parser and path. C80_erased and C80_mentioned are for runs in which caches can be written; the others also for runs in which they cannot. C80_mentioned asks that databases be told apart by their identifiers (as C70)."
  },
  {
   "property": "C81",
   "status": "proved",
   "theorems": [
    "C81_same",
    "C81_exit",
    "C81_rows",
    "C81_exit_refuted"
   ],
   "note": "C81_same for any two lists of ignores, C81_exit and C81_rows when the second ignores more; C81_exit_refuted: the exit code can grow from 1 to 127"
  },
  {
   "property": "C82",
   "status": "proved",
   "theorems": [
    "C82_npm",
    "C82_nuget",
    "C82_pipenv",
    "C82_bun",
    "C82_composer",
    "C82_renv",
    "C82_batch",
    "C82_fetch",
    "C82_advisory",
    "C82_cache"
   ],
   "note": "Keys are matched up to ASCII case. No nesting limit. rfc3339 is the parameter that decides which timestamps are accepted."
  },
  {
   "property": "C83",
   "status": "proved",
   "theorems": [
    "C83_same",
    "C83_last",
    "C83_document",
    "C83_listing",
    "C83_exit_refuted"
   ],
   "note": "about run_full, with json.Marshal of an advisory as a parameter; C83_exit_refuted: C66_exit does not extend to results that cannot be printed"
  },
  {
   "property": "C84",
   "theorems": [
    "C84_kept",
    "C84_exit",
    "C84_exit_refuted"
   ],
   "status": "proved",
   "note": "C84_exit_refuted shows that the hypothesis about ignores is needed"
  },
  {
   "property": "C85",
   "theorems": [
    "C85_accounted",
    "C85_clean",
    "C85_every",
    "C85_parse"
   ],
   "status": "proved",
   "note": "TOML, YAML, XML, go.mod, jsonc, URL and RFC 3339 decoding stay parameters; for JSON, yarn, pnpm and keyed lockfiles the converse is about documents of the shapes of FormatSpec.v"
  },
  {
   "property": "C86",
   "status": "proved",
   "theorems": [
    "C86_only",
    "C86_served",
    "C86_bytes",
    "C86_lockfile",
    "C86_unchanged",
    "C86_version"
   ],
   "note": "the converse for versions is for a package version that cannot be parsed; events that cannot be compared crash depending on what the sorting algorithm compares (C68)"
  },
  {
   "property": "C87",
   "status": "proved",
   "theorems": [
    "C87_steps",
    "C87_files",
    "C87_cache",
    "C87_requests",
    "C87_hosts",
    "C87_quiet",
    "C87_twice_refuted"
   ],
   "note": "for finished and crashed runs"
  },
  {
   "property": "C88",
   "status": "proved",
   "theorems": [
    "C88_same",
    "C88_exit",
    "C88_rows",
    "C88_twice",
    "C88_clean",
    "C88_again",
    "C88_silenced_refuted"
   ],
   "note": "the YAML library is a parameter; for C88_twice, C88_clean and C88_again what the first run writes is assumed to be read back as what was encoded"
  },
  {
   "property": "C89",
   "status": "proved",
   "theorems": [
    "C89_same",
    "C89_fresh",
    "C89_updated",
    "C89_stale_refuted"
   ],
   "note": "steady servers and caches in which what is confirmed is what is delivered; C89_stale_refuted shows that the latter is needed"
  },
  {
   "property": "C90",
   "status": "proved",
   "theorems": [
    "C90_read",
    "C90_drive",
    "C90_parser",
    "C90_elsewhere",
    "C90_relative_refuted"
   ],
   "note": "filepath.IsAbs and filepath.Clean of Windows are parameters; the rest of a run on Windows is not modelled"
  },
  {
   "property": "C91",
   "status": "proved",
   "theorems": [
    "C91_json",
    "C91_words"
   ],
   "note": "for Main.run; the notices that databases and parsers write to stderr themselves are in C80"
  },
  {
   "property": "C92",
   "status": "proved",
   "theorems": [
    "C92_check",
    "C92_served",
    "C92_run",
    "C92_zero_refuted",
    "C92_server_refuted"
   ],
   "note": "for servers that answer each package alone; C92_zero_refuted and C92_server_refuted show that the conditions are needed"
  },
  {
   "property": "C93",
   "status": "proved",
   "theorems": [
    "C93_listing",
    "C93_reads",
    "C93_same",
    "C93_reports",
    "C93_array_refuted"
   ],
   "note": "run_nil is Main.run with nil slices in the document; texts of lockfiles that are UTF-8"
  },
  {
   "property": "C94",
   "status": "proved",
   "theorems": [
    "C94_kept",
    "C94_more",
    "C94_order",
    "C94_ignores_refuted"
   ],
   "note": "Hypotheses as for C77 (steady, comparable, usual ecosystem names); both runs exit 0 or 1. C94_ignores_refuted shows that the order matters once something is ignored."
  },
  {
   "property": "C95",
   "status": "proved",
   "theorems": [
    "C95_same",
    "C95_no_config_refuted"
   ],
   "note": "For --no-config-databases the theorem asks that --no-config, --list-packages and --update-config-ignores are not given; C95_no_config_refuted shows that it fails with --no-config. For --no-config-ignores alone there is no hypothesis."
  },
  {
   "property": "C96",
   "status": "proved",
   "theorems": [
    "C96_parse_as",
    "C96_files",
    "C96_rows_refuted"
   ],
   "note": "The runs are equal as functions of the starting state. C96_files asks that the cleaned path of each file found is a file (no symbolic link under '..'). C96_rows_refuted shows why csv-row is excluded."
  },
  {
   "property": "C97",
   "status": "proved",
   "theorems": [
    "C97_set"
   ],
   "note": "No hypotheses but that the lists have the same members. Only the record of the IDs a check was given (not an output) may list them in another order."
  }
 ]
}
