(** pkg/lockfile/parse-pnpm-lock.go *)
From Coq Require Import QArith.
From Verif Require Import GoStr Types Regex MemDB GoMap Scan Ecosystems LockIO Commit.
Local Open Scope string_scope.

(** parse-pnpm-lock.go:15-26, the fields used *)
Record PnpmPackage := mkPnpm { pn_tarball : string; pn_commit : string; pn_name : string; pn_version : string }.
(** parse-pnpm-lock.go:28-31; a float64 is the rational it stands for *)
Record PnpmLockfile := mkPnpmLockfile { pl_version : Q; pl_packages : list (string * PnpmPackage) }.

(** parse-pnpm-lock.go:38-55 UnmarshalYAML.  [doc]: the node decoded into a
    pnpmLockfileV6 (None: an error); [float]: strconv.ParseFloat (None: an error) *)
Definition unmarshal_pnpm (float : string -> option Q) (doc : option (string * option (list (string * PnpmPackage)))) : option PnpmLockfile :=
  match doc with
  | None => None
  | Some (version, packages) => option_map (fun v => mkPnpmLockfile v (map_entries packages)) (float version)
  end.
(** parse-pnpm-lock.go:59-63 startsWithNumber *)
Definition starts_with_number (str : string) : bool := match find (Seqs [Bol; Cls is_digit]) str with Some _ => true | None => false end.
(** strings.Trim(s, "'") *)
Fixpoint trim_quotes (s : string) : string :=
  match s with String c s' => if Ascii.eqb c "'" then trim_quotes s' else s | "" => "" end.
Definition trim_single_quotes (s : string) : string := str_rev (trim_quotes (str_rev (trim_quotes s))).

(** [\w.-] *)
Definition pnpm_version_char (c : ascii) : bool := is_word c || Ascii.eqb c "." || Ascii.eqb c "-".
(** parse-pnpm-lock.go:128: ^(.+)@([\w.-]+)(?:\(|$) *)
Definition re_name_at_version : re :=
  Seqs [Bol; Cap 1 (Plus true Dot); Chr "@"; Cap 2 (Plus true (Cls pnpm_version_char)); Alt (Chr "(") Eol].
(** parse-pnpm-lock.go:126-135 parseNameAtVersion *)
Definition parse_name_at_version (value : string) : string * string :=
  match find re_name_at_version value with
  | None => ("", "")
  | Some m => (group m 1, group m 2)
  end.
(** parse-pnpm-lock.go:67-124 extractPnpmPackageNameAndVersion; None: the
    error errInvalidPackagePath.  parts[:2] of one part panics *)
Definition extract_pnpm (dependency_path : string) (nine : bool) : res (option (string * string)) :=
  if has_prefix dependency_path "file:" then Ok (Some ("", ""))
  else if nine then
    let dependency_path := trim_single_quotes dependency_path in
    let '(dependency_path, is_scoped) := cut_prefix dependency_path "@" in
    let '(name, version, _) := cut dependency_path "@" in
    Ok (Some (if is_scoped then "@" +s+ name else name, version))
  else
    match split_char "/" dependency_path with
    | [] | [_] => Ok None
    | _ :: first :: parts =>
        rbind (if has_prefix first "@" then
                 match parts with
                 | [] => Panic
                 | second :: parts => Ok (join "/" [first; second], parts)
                 end
               else Ok (first, parts)) (fun '(name, parts) =>
          let version := match parts with [] => "" | p :: _ => p end in
          let '(name, version) := if seqb version "" then parse_name_at_version name else (name, version) in
          if seqb version "" || negb (starts_with_number version) then Ok (Some ("", ""))
          else Ok (Some (name, cut_before version "_")))
    end.
(** parse-pnpm-lock.go:163-172 *)
Definition re_codeload : re :=
  Seqs [Lit "https://codeload.github.com"; Sq (Chr "/") (Plus true (Cls repo_char)); Sq (Chr "/") (Plus true (Cls repo_char));
        Lit "/tar.gz/"; Cap 1 Words; Eol].
Definition pnpm_commit (pkg : PnpmPackage) : string :=
  if has_prefix (pn_tarball pkg) "https://codeload.github.com" then
    match find re_codeload (pn_tarball pkg) with
    | Some m => group m 1
    | None => pn_commit pkg
    end
  else pn_commit pkg.

Section WithEnv.
Variable it : Iter.
Variable files : string -> txt.
(** parse-pnpm-lock.go:137-184 parsePnpmLock; None: the error *)
Fixpoint pnpm_loop (nine : bool) (l : list (string * PnpmPackage)) : res (option (list Pkg)) :=
  match l with
  | [] => Ok (Some [])
  | (s, pkg) :: l' =>
      rbind (extract_pnpm s nine) (fun o =>
        match o with
        | None => Ok None
        | Some (name, version) =>
            let name := if negb (seqb (pn_name pkg) "") then pn_name pkg else name in
            let version := if negb (seqb (pn_version pkg) "") then pn_version pkg else version in
            if seqb name "" || seqb version "" then pnpm_loop nine l'
            else rbind (pnpm_loop nine l') (fun r =>
                   Ok (option_map (cons (mkPkg name version (pnpm_commit pkg) NpmEcosystem NpmEcosystem)) r))
        end)
  end.
Definition parse_pnpm (lockfile : PnpmLockfile) : res (option (list Pkg)) :=
  pnpm_loop (Qeq_bool (pl_version lockfile) 9) (it _ (pl_packages lockfile)).
(** parse-pnpm-lock.go:186-216 ParsePnpmLock; [yaml]: yaml.Unmarshal's node
    (None: an error, Some None: an empty document) *)
Definition parse_pnpm_lock (float : string -> option Q) (yaml : string -> option (option (option (string * option (list (string * PnpmPackage))))))
    (path : string) : pres :=
  decoded files (fun content =>
    match yaml content with
    | None => None
    | Some None => Some (mkPnpmLockfile 0 [])
    | Some (Some doc) => unmarshal_pnpm float doc
    end) path (fun lockfile =>
      rbind (parse_pnpm lockfile) (fun r =>
        match r with Some ps => packages_of ps | None => fails_with (FParse path) end)).
End WithEnv.
