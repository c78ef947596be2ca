(** pkg/lockfile/parse-yarn-lock.go *)
From Verif Require Import GoStr Types Regex MemDB Scan Ecosystems LockIO Commit.

(** parse-yarn-lock.go:15-17 shouldSkipYarnLine *)
Definition should_skip_yarn_line (line : string) : bool := seqb line "" || has_prefix line "#".
(** parse-yarn-lock.go:19-47 groupPackageLines; [group] is the group being
    collected *)
Fixpoint group_lines (lines : list string) (group : list string) : list (list string) :=
  match lines with
  | [] => match group with [] => [] | _ => [group] end
  | line :: lines' =>
      if should_skip_yarn_line line then group_lines lines' group
      else if negb (has_prefix line " ") then
        match group with
        | [] => group_lines lines' [line]
        | _ => group :: group_lines lines' [line]
        end
      else group_lines lines' (group ++ [line])
  end.
Definition group_package_lines (lines : list string) : list (list string) := group_lines lines [].

(** parse-yarn-lock.go:49-65 extractYarnPackageName.  [fuel] bounds the
    recursion, which takes a shorter string each time *)
Fixpoint yarn_name_fuel (fuel : nat) (str : string) : string :=
  match fuel with
  | O => ""
  | S f =>
      let str := trim_prefix str """" in
      let str := cut_before str "," in
      let '(str, is_scoped) := cut_prefix str "@" in
      let '(name, range, _) := cut str "@" in
      if has_prefix range "npm:" && contains range "@" then yarn_name_fuel f (trim_prefix range "npm:")
      else if is_scoped then "@" +s+ name else name
  end.
Definition extract_yarn_package_name (str : string) : string := yarn_name_fuel (S (String.length str)) str.

(** [\w-.+] *)
Definition version_char (c : ascii) : bool := is_word c || Ascii.eqb c "-" || Ascii.eqb c "." || Ascii.eqb c "+".
Definition dquote : ascii := "034".
Definition Quote : re := Opt (Chr dquote).
(** parse-yarn-lock.go:68: ^ {2}"?version"?:? "?([\w-.+]+)"?$ *)
Definition re_yarn_version : re :=
  Seqs [Bol; Lit "  "; Quote; Lit "version"; Quote; Opt (Chr ":"); Chr " "; Quote; Cap 1 (Plus true (Cls version_char)); Quote; Eol].
(** not a space, not a quote of either kind *)
Definition resolution_char (c : ascii) : bool := negb (Ascii.eqb c " " || Ascii.eqb c "'" || Ascii.eqb c dquote).
(** parse-yarn-lock.go:83: two spaces, resolution: or resolved, maybe quoted,
    a space, and a quoted text of such characters *)
Definition re_yarn_resolution : re :=
  Seqs [Bol; Lit "  "; Quote; Alts [Lit "resolution:"; Lit "resolved"]; Quote; Lit " """; Cap 1 (Plus true (Cls resolution_char)); Chr dquote; Eol].
(** the first line that matches: parse-yarn-lock.go:70-80, 85-95 *)
Fixpoint first_group (r : re) (group_ : list string) : string :=
  match group_ with
  | [] => ""
  | s :: l => match find r s with Some m => group m 1 | None => first_group r l end
  end.
Definition determine_yarn_version : list string -> string := first_group re_yarn_version.
Definition determine_yarn_resolution : list string -> string := first_group re_yarn_resolution.

Section WithEnv.
Variable files : string -> txt.
Variable url : string -> option Url.
(** parse-yarn-lock.go:152-174 parsePackageGroup; group[0] of an empty group panics *)
Definition parse_package_group (group : list string) : res Pkg :=
  match group with
  | [] => Panic
  | header :: _ =>
      Ok (mkPkg (extract_yarn_package_name header) (determine_yarn_version group)
                (try_extract_commit url (determine_yarn_resolution group)) NpmEcosystem NpmEcosystem)
  end.
(** the complaints on stderr: the names of the packages without a version *)
Definition complaint (p : Pkg) : list string := if seqb (p_version p) "" then [p_name p] else [].
(** parse-yarn-lock.go:194-202 *)
Fixpoint yarn_packages (groups : list (list string)) : res (list Pkg) :=
  match groups with
  | [] => Ok []
  | [] :: _ => Panic
  | ((header :: _) as group) :: groups' =>
      if seqb header "__metadata:" || has_suffix header "@workspace:."":" then yarn_packages groups'
      else rbind (parse_package_group group) (fun p => rbind (yarn_packages groups') (fun ps => Ok (p :: ps)))
  end.
(** parse-yarn-lock.go:176-205 ParseYarnLock: the result and the complaints *)
Definition parse_yarn_lock (path : string) : pres * list string :=
  match files path with
  | Gone => (fails_with (FRead path), [])
  | Text content fails =>
      let '(lines, too_long) := scan content in
      let groups := group_package_lines lines in
      if too_long || fails then (fails_with (FScan path), [])
      else match yarn_packages groups with
           | Panic => (Panic, [])
           | Ok ps => (packages_of ps, flat_map complaint ps)
           end
  end.
End WithEnv.
