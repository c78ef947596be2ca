(** pkg/lockfile/parse-maven-lock.go *)
From Verif Require Import GoStr Types Regex MemDB GoMap Scan Ecosystems LockIO.
Local Open Scope string_scope.

(** An XML element as encoding/xml's decoder gives its tokens: local names, text
    and elements; attributes, name spaces, comments, directives and processing
    instructions do not matter to this parser and are left out. *)
Inductive xnode := XText (s : string) | XElem (name : string) (children : list xnode).

(** encoding/xml's Unmarshal into a string: the text directly in the element *)
Fixpoint xml_text (cs : list xnode) : string :=
  match cs with
  | [] => ""
  | XText s :: r => s +s+ xml_text r
  | XElem _ _ :: r => xml_text r
  end.
(** parse-maven-lock.go:11-16 *)
Record MavenDep := mkMavenDep { md_group : string; md_artifact : string; md_version : string }.
(** a string field: each element of that name sets it *)
Definition dec_dependency (cs : list xnode) : MavenDep :=
  fold_left (fun d n => match n with
    | XElem name kids =>
        if seqb name "groupId" then mkMavenDep (xml_text kids) (md_artifact d) (md_version d)
        else if seqb name "artifactId" then mkMavenDep (md_group d) (xml_text kids) (md_version d)
        else if seqb name "version" then mkMavenDep (md_group d) (md_artifact d) (xml_text kids)
        else d
    | XText _ => d end) cs (mkMavenDep "" "" "").
(** parse-maven-lock.go:63-64: a path such as a>b collects, from every element
    a, every element b *)
Definition named (name : string) (cs : list xnode) : list (list xnode) :=
  flat_map (fun n => match n with XElem name' kids => if seqb name' name then [kids] else [] | XText _ => [] end) cs.
Definition xml_path (path : list string) (cs : list xnode) : list (list xnode) :=
  fold_left (fun css name => flat_map (named name) css) path [cs].
(** parse-maven-lock.go:73-101 UnmarshalXML *)
Definition dec_properties (cs : list xnode) : list (string * string) :=
  fold_left (fun m n => match n with XElem name kids => map_set name (xml_text kids) m | XText _ => m end) cs [].
(** parse-maven-lock.go:59-65: ModelVersion is not read again *)
Record MavenFile := mkMavenFile { mv_properties : list (string * string); mv_dependencies : list MavenDep; mv_managed : list MavenDep }.
Definition dec_pom (root : xnode) : option MavenFile :=
  match root with
  | XElem name cs =>
      if seqb name "project" then
        Some (mkMavenFile (fold_left (fun _ kids => dec_properties kids) (named "properties" cs) [])
                (map dec_dependency (xml_path ["dependencies"; "dependency"] cs))
                (map dec_dependency (xml_path ["dependencyManagement"; "dependencies"; "dependency"] cs)))
      else None
  | XText _ => None
  end.

(** parse-maven-lock.go:19: maybe a bracket or parenthesis, as little as
    possible (1), and a comma, a closing parenthesis or bracket, or the end *)
Definition is_open (c : ascii) : bool := Ascii.eqb c "[" || Ascii.eqb c "(".
Definition is_close (c : ascii) : bool := Ascii.eqb c ")" || Ascii.eqb c "]".
Definition re_requirement : re := Seqs [Opt (Cls is_open); Cap 1 (Star false Dot); Alts [Chr ","; Cls is_close; Eol]].
(** parse-maven-lock.go:18-28 parseResolvedVersion *)
Definition parse_resolved_version (version : string) : string :=
  match find re_requirement version with
  | None => "0"
  | Some m => if seqb (group m 1) "" then "0" else group m 1
  end.
(** parse-maven-lock.go:31: a dollar sign and, in braces, as much as possible *)
Definition re_interpolation : re := Seqs [Lit "${"; Cap 1 (Plus true Dot); Chr "}"].
Definition maven_complaint (d : MavenDep) (property : string) : string :=
  "Failed to resolve version of " +s+ md_group d +s+ ":" +s+ md_artifact d +s+ ": property """ +s+ property +s+ """ could not be found
".
(** parse-maven-lock.go:30-51 resolveVersionValue, and what it says on stderr *)
Definition resolve_version_value (d : MavenDep) (f : MavenFile) : string * list string :=
  match find re_interpolation (md_version d) with
  | None => (md_version d, [])
  | Some m =>
      match map_get (group m 1) (mv_properties f) with
      | Some val => (val, [])
      | None => ("0", [maven_complaint d (group m 1)])
      end
  end.
(** parse-maven-lock.go:53-57 ResolveVersion *)
Definition resolve_version (d : MavenDep) (f : MavenFile) : string * list string :=
  let '(v, said) := resolve_version_value d f in (parse_resolved_version v, said).
(** parse-maven-lock.go:122-131, 135-144 *)
Definition maven_loop (f : MavenFile) (ds : list MavenDep) (acc : list (string * Pkg) * list string) : list (string * Pkg) * list string :=
  fold_left (fun '(details, said) d =>
    let final_name := md_group d +s+ ":" +s+ md_artifact d in
    let '(v, s) := resolve_version d f in
    (map_set final_name (mkPkg final_name v "" MavenEcosystem MavenEcosystem) details, (said ++ s)%list)) ds acc.
(** parse-maven-lock.go:103-147 ParseMavenLock; [xml]: the first element of a
    document, if it is well formed *)
Definition parse_maven_lock (it : Iter) (files : string -> txt) (xml : string -> option xnode) (path : string) : pres * list string :=
  match read_file files path with
  | None => (fails_with (FRead path), [])
  | Some content =>
      match xml content with
      | None => (fails_with (FParse path), [])
      | Some root =>
          match dec_pom root with
          | None => (fails_with (FParse path), [])
          | Some f =>
              let '(details, said) := maven_loop f (mv_dependencies f) (maven_loop f (mv_managed f) ([], [])) in
              (packages_of (map_to_slice it details), said)
          end
      end
  end.
