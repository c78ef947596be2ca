(** internal/reporter/report.go, reporter.go and the report-building part of
    main.go.  [col attr text] is github.com/fatih/color's rendering of a text. *)
From Verif Require Import GoStr Types Osv Describe Lockfile Json.

(** report.go:13-25 *)
Record PkgVulns := mkPV { pv_pkg : Pkg; pv_vulns : list OSV; pv_ignored : list OSV }.
Record Report := mkRep { rp_lock : Lockfile; rp_pkgs : list PkgVulns }.

(** main.go:61-72 one iteration for one advisory *)
Definition transpose_step (ignores : list string) (acc : list OSV * list OSV) (v : OSV) : list OSV * list OSV :=
  let '(vulnerabilities, ignored) := acc in
  if includes vulnerabilities v || includes ignored v then acc
  else if mem (o_id v) ignores then (vulnerabilities, ignored ++ [v])
  else (vulnerabilities ++ [v], ignored).
(** main.go:59 vulns1[packageIndex] for every database; out of range panics *)
Fixpoint column (i : nat) (all : list (list (list OSV))) : res (list OSV) :=
  match all with
  | [] => Ok []
  | vulns1 :: all' =>
      match nth_error vulns1 i with
      | None => Panic
      | Some vulns => rbind (column i all') (fun rest => Ok (vulns ++ rest))
      end
  end.
(** main.go:49-80 transposePkgResults *)
Definition transpose (pkg : Pkg) (ignores : list string) (i : nat) (all : list (list (list OSV))) : res PkgVulns :=
  rbind (column i all) (fun vs =>
    let '(vulnerabilities, ignored) := fold_left (transpose_step ignores) vs ([], []) in
    Ok (mkPV pkg vulnerabilities ignored)).
(** main.go:106-111 *)
Fixpoint transpose_all (pkgs : list Pkg) (ignores : list string) (i : nat) (all : list (list (list OSV))) : res (list PkgVulns) :=
  match pkgs with
  | [] => Ok []
  | p :: ps =>
      rbind (transpose p ignores i all) (fun x =>
      rbind (transpose_all ps ignores (i + 1) all) (fun xs => Ok (x :: xs)))
  end.

Definition sum (l : list nat) : nat := fold_left Nat.add l 0.
(** report.go:31-39 countKnownVulnerabilities, 45-53 countIgnoredVulnerabilities *)
Definition count_known (r : Report) : nat := sum (map (fun p => List.length (pv_vulns p)) (rp_pkgs r)).
Definition count_ignored (r : Report) : nat := sum (map (fun p => List.length (pv_ignored p)) (rp_pkgs r)).
(** report.go:27-29, 41-43 *)
Definition has_known (r : Report) : bool := Nat.ltb 0 (count_known r).
Definition has_ignored (r : Report) : bool := Nat.ltb 0 (count_ignored r).

(** report.go:81-87 Form *)
Definition form (count : nat) (singular plural : string) : string :=
  if Nat.eqb count 1 then singular else plural.

Section WithColor.
Variable col : string -> string -> string.

(** report.go:59-76 the lines of one package *)
Definition pkg_lines (p : PkgVulns) : list string :=
  if Nat.eqb (List.length (pv_vulns p)) 0 then []
  else ("  " +s+ col "yellow" (p_name (pv_pkg p) +s+ "@" +s+ p_version (pv_pkg p)) +s+ " "
        +s+ col "red" "is affected by the following vulnerabilities:")
       :: map (fun v => "    " +s+ col "cyan" (o_id v +s+ ":") +s+ " " +s+ describe v) (pv_vulns p).
(** report.go:55-79 formatLineByLine *)
Definition format_lines (r : Report) : string := join newline (flat_map pkg_lines (rp_pkgs r)).
(** report.go:89-101 describeIgnores *)
Definition describe_ignores (r : Report) : string :=
  let count := count_ignored r in
  if Nat.eqb count 0 then ""
  else col "yellow" (" (" +s+ dec_of_nat count +s+ " " +s+ form count "was" "were" +s+ " ignored)").
(** report.go:103-135 String *)
Definition report_string (r : Report) : string :=
  let count := count_known r in
  let ignore_msg := describe_ignores r in
  let word := if negb (seqb ignore_msg "") then "new" else "known" in
  if Nat.eqb count 0 then
    "  " +s+ col "green" ("no " +s+ word +s+ " vulnerabilities found") +s+ ignore_msg +s+ newline
  else
    format_lines r +s+ newline
    +s+ newline +s+ "  "
    +s+ col "red" (dec_of_nat count +s+ " " +s+ word +s+ " " +s+ form count "vulnerability" "vulnerabilities"
                   +s+ " found in " +s+ lf_path (rp_lock r))
    +s+ ignore_msg +s+ newline.

(** reporter.go:59-61 Result: a lockfile (main.go:653) or a report (main.go:706) *)
Inductive Result := RLock (l : Lockfile) | RReport (r : Report).
Definition result_string (r : Result) : string :=
  match r with RLock l => lockfile_string l | RReport r => report_string r end.
End WithColor.

(** ** JSON of the results.  [osv_json] is json.Marshal of an advisory.
    Simplification: an empty package list is printed as [], also where Go has a
    nil slice and prints null (Nulls.v has these). *)
Section WithOsvJson.
Variable osv_json : OSV -> json.
Definition omit (k v : string) : list (string * json) := if seqb v "" then [] else [(k, JStr v)].
(** internal/types.go:3-9 *)
Definition pkg_fields (p : Pkg) : list (string * json) :=
  [("name", JStr (p_name p)); ("version", JStr (p_version p))]
  ++ omit "commit" (p_commit p) ++ omit "ecosystem" (p_eco p) ++ omit "compareAs" (p_cmp p).
(** report.go:13-18; vulnerabilities.go:45-58 prints an empty list as [] *)
Definition pkg_vulns_json (p : PkgVulns) : json :=
  JObj (pkg_fields (pv_pkg p) ++ [("vulnerabilities", JArr (map osv_json (pv_vulns p)));
                                  ("ignored", JArr (map osv_json (pv_ignored p)))]).
(** parse.go:91-95; report.go:20-25: the report's packages hide the lockfile's *)
Definition result_json (r : Result) : json :=
  match r with
  | RLock l => JObj [("filePath", JStr (lf_path l)); ("parsedAs", JStr (lf_as l));
                     ("packages", JArr (map (fun p => JObj (pkg_fields p)) (lf_pkgs l)))]
  | RReport r => JObj [("filePath", JStr (lf_path (rp_lock r))); ("parsedAs", JStr (lf_as (rp_lock r)));
                       ("packages", JArr (map pkg_vulns_json (rp_pkgs r)))]
  end.
(** reporter.go:75-87 PrintJSONResults (FullRun.v has the case that json.Marshal fails) *)
Definition results_json (rs : list Result) : string := print (JObj [("results", JArr (map result_json rs))]).
End WithOsvJson.
