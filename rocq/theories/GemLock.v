(** pkg/lockfile/parse-gemfile-lock.go *)
From Verif Require Import GoStr Types Regex Scan Ecosystems LockIO.
Local Open Scope string_scope.

(** parse-gemfile-lock.go:31-36 isSourceSection *)
Definition is_source_section (line : string) : bool :=
  contains line "GIT" || contains line "GEM" || contains line "PATH" || contains line "PLUGIN SOURCE".
(** parse-gemfile-lock.go:25-29, 38-46: the state, the dependencies and the
    commit; rubyVersion and bundlerVersion are written and never read *)
Record GemParser := mkGem { gm_state : string; gm_deps : list Pkg; gm_commit : string }.
(** None: log.Fatal *)
Definition fatal {A} : option A := None.
(** parse-gemfile-lock.go:48-56 addDependency *)
Definition add_dependency (name version : string) (p : GemParser) : GemParser :=
  mkGem (gm_state p) (gm_deps p ++ [mkPkg name version (gm_commit p) BundlerEcosystem BundlerEcosystem]) (gm_commit p).
(** parse-gemfile-lock.go:60: spaces (group 1), as little as possible (2), then
    maybe a blank and a parenthesis with anything but dashes (3) and maybe a
    dash and anything (4), then maybe an exclamation mark (5), and the end *)
Definition re_gem_version : re :=
  Seqs [Lit " ("; Cap 3 (Star true (Cls (fun c => negb (Ascii.eqb c "-")))); Opt (Sq (Chr "-") (Cap 4 (Star true Dot))); Chr ")"].
Definition re_gem_tail : re := Seqs [Opt re_gem_version; Opt (Cap 5 (Chr "!")); Eol].
Definition re_gem_spec : re := Seqs [Bol; Cap 1 (Plus true (Chr " ")); Cap 2 (Star false Dot); re_gem_tail].
(** parse-gemfile-lock.go:58-78 parseSpec *)
Definition parse_spec (line : string) (p : GemParser) : option GemParser :=
  match find re_gem_spec line with
  | None => Some p
  | Some m =>
      if seqb (group m 1) "" then fatal
      else if Nat.eqb (String.length (group m 1)) 4 then Some (add_dependency (group m 2) (group m 3) p)
      else Some p
  end.
(** parse-gemfile-lock.go:87: two blanks, letters of either case, a colon and
    a blank, and anything.  (?i) also lets in two letters outside ASCII; lines
    with these have no effect either way *)
Definition is_letter (c : ascii) : bool := is_upper c || is_lower c.
Definition re_gem_option : re := Seqs [Bol; Lit "  "; Cap 1 (Plus true (Cls is_letter)); Lit ": "; Cap 2 (Star true Dot); Eol].
(** parse-gemfile-lock.go:80-108 parseSource *)
Definition parse_source (line : string) (p : GemParser) : option GemParser :=
  if seqb line "  specs" then Some p
  else match find re_gem_option line with
       | Some m =>
           let commit := trim_prefix (m_text m) "  revision: " in
           Some (if negb (seqb commit (m_text m)) then mkGem (gm_state p) (gm_deps p) commit else p)
       | None => parse_spec line p
       end.
(** parse-gemfile-lock.go:110-114 isNotIndented *)
Definition is_re_blank (c : ascii) : bool :=
  Ascii.eqb c "009" || Ascii.eqb c "010" || Ascii.eqb c "012" || Ascii.eqb c "013" || Ascii.eqb c " ".
Definition is_not_indented (line : string) : bool := re_match (Seqs [Bol; Cls (fun c => negb (is_re_blank c))]) line.
(** parse-gemfile-lock.go:116-131 parseLineBasedOnState *)
Definition parse_by_state (line : string) (p : GemParser) : option GemParser :=
  if seqb (gm_state p) "dependency" then Some p
  else if seqb (gm_state p) "platform" then Some p
  else if seqb (gm_state p) "ruby" then Some p
  else if seqb (gm_state p) "bundled_with" then Some p
  else if seqb (gm_state p) "source" then parse_source line p
  else fatal.
Definition in_state (s : string) (p : GemParser) : GemParser := mkGem s (gm_deps p) (gm_commit p).
(** parse-gemfile-lock.go:138-165: one line *)
Definition gem_line (p : GemParser) (line : string) : option GemParser :=
  if is_source_section line then parse_source line (mkGem "source" (gm_deps p) "")
  else if seqb line "DEPENDENCIES" then Some (in_state "dependency" p)
  else if seqb line "PLATFORMS" then Some (in_state "platform" p)
  else if seqb line "RUBY VERSION" then Some (in_state "ruby" p)
  else if seqb line "BUNDLED WITH" then Some (in_state "bundled_with" p)
  else
    let p := if is_not_indented line then in_state "" p else p in
    if negb (seqb (gm_state p) "") then parse_by_state line p else Some p.
Fixpoint gem_lines (p : GemParser) (lines : list string) : option GemParser :=
  match lines with
  | [] => Some p
  | l :: ls => match gem_line p l with Some p' => gem_lines p' ls | None => None end
  end.
(** parse-gemfile-lock.go:134: (?:\r?\n)+ *)
Definition re_breaks : re := Plus true (Sq (Opt (Chr cr)) (Chr nl)).
(** parse-gemfile-lock.go:133-167 parse *)
Definition gem_parse (contents : string) : option GemParser := gem_lines (mkGem "" [] "") (re_split re_breaks contents).
(** parse-gemfile-lock.go:169-181 ParseGemfileLock; None: the process ends *)
Definition parse_gemfile_lock (files : string -> txt) (path : string) : option pres :=
  match read_file files path with
  | None => Some (fails_with (FRead path))
  | Some contents => option_map (fun p => packages_of (gm_deps p)) (gem_parse contents)
  end.
