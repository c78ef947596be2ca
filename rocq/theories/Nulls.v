(** Lists that Go has as nil slices, which json.Marshal writes as null.
    [Report.result_json] writes [] for all empty lists; here is the document as it
    is.  The packages of a report are made with make (main.go:83-86), the ones of
    a lockfile (--list-packages) are what its parser returns. *)
From Verif Require Import GoStr GoMap Types Json Osv MemDB Lockfile Report Main.

(** a slice; None is nil *)
Definition slice := option (list Pkg).
(** append *)
Definition appended (s : slice) (p : Pkg) : slice := Some (match s with Some l => l ++ [p] | None => [p] end).
(** the parsers that begin with a nil slice: parse-gemfile-lock.go:40, 49, 168, 178;
    parse-gradle-lock.go:32, 63; parse-mix-lock.go:25, 77.  All others return one
    from make or pkgDetailsMapToSlice (parse-npm-lock.go:34-42), or a literal
    (parse-pubspec-lock.go:77). *)
Definition starts_nil (f : ParserFn) : bool :=
  match f with ParseGemfileLock | ParseGradleLock | ParseMixLock => true | _ => false end.
(** csv.go:55, 86 *)
Definition nil_as (parsed_as : string) : bool :=
  seqb parsed_as parse_as_csv_row || seqb parsed_as parse_as_csv_file
  || match map_get parsed_as parsers with Some f => starts_nil f | None => false end.
(** the slice of a parsed lockfile; sort.Slice sorts in place (parse.go:137-143,
    csv.go:78-84) *)
Definition packages_of (l : Lockfile) : slice :=
  if nil_as (lf_as l) then fold_left appended (lf_pkgs l) None else Some (lf_pkgs l).
(** parse.go:91-95, json.Marshal *)
Definition slice_json (s : slice) : json :=
  match s with Some l => JArr (map (fun p => JObj (pkg_fields p)) l) | None => JNull end.
Section WithOsvJson.
Variable osv_json : OSV -> json.
Definition result_json_nil (r : Result) : json :=
  match r with
  | RLock l => JObj [("filePath", JStr (lf_path l)); ("parsedAs", JStr (lf_as l)); ("packages", slice_json (packages_of l))]
  | RReport _ => result_json osv_json r
  end.
(** reporter.go:75-87 PrintJSONResults; the results are made with make (reporter.go:28) *)
Definition results_json_nil (rs : list Result) : string := print (JObj [("results", JArr (map result_json_nil rs))]).
End WithOsvJson.
(** main.go:499-741 run, as [Main.run] but for the document *)
Definition run_nil (E : Env) (O : Opts) : M Z := fun s =>
  let '(r, s1) := run_body E O s in
  if o_json O then let '(_, s2) := emit (EOut KDoc Stdout (results_json_nil (e_osv_json E) (s_results s1))) s1 in (r, s2) else (r, s1).
