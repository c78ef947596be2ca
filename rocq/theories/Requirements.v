(** pkg/lockfile/parse-requirements-txt.go *)
From Verif Require Import GoStr Types Regex Osv MemDB GoMap Path Scan.

(** parse-requirements-txt.go:66-73 normalizedRequirementName (to_lower: ASCII) *)
Definition normalized_requirement_name (name : string) : string :=
  let name := replace_all re_name_seps "-" name in
  let name := to_lower name in
  cut_before name "[".

(** parse-requirements-txt.go:18-53 parseLine *)
Definition parse_line (line : string) : Pkg :=
  let constraint := "" in
  let constraint := if contains line "==" then "==" else constraint in
  let constraint := if contains line ">=" then ">=" else constraint in
  let constraint := if contains line "~=" then "~=" else constraint in
  let constraint := if contains line "!=" then "!=" else constraint in
  let '(name, version) :=
    if negb (seqb constraint "") then
      let name := trim_space (cut_before line constraint) in
      if negb (seqb constraint "!=") then (name, cut_before (trim_space (cut_after line constraint)) " ")
      else (name, "0.0.0")
    else (line, "0.0.0") in
  mkPkg (normalized_requirement_name name) version "" PipEcosystem PipEcosystem.

(** parse-requirements-txt.go:75-79 removeComments, (^|\s+)#.*$ *)
Definition re_comment : re := Seqs [Alt Bol (Plus true (Cls is_re_space)); Chr "#"; Star true Dot; Eol].
Definition remove_comments (line : string) : string := trim_space (replace_all re_comment "" line).

(** parse-requirements-txt.go:81-91 isNotRequirementLine *)
Definition is_not_requirement_line (line : string) : bool :=
  seqb line "" || has_prefix line "-" || has_prefix line "https://" || has_prefix line "http://"
  || has_prefix line "." || has_prefix line "/".

(** parse-requirements-txt.go:93-99 isLineContinuation, ([^\\]|^)(\\{2})*\\$ *)
Definition Bs : re := Chr "\".
Definition re_continuation : re :=
  Seqs [Alt (Cls (fun c => negb (Ascii.eqb c "\"))) Bol; Star true (Sq Bs Bs); Bs; Eol].
Definition is_line_continuation (line : string) : bool := re_match re_continuation line.

(** parse-requirements-txt.go:117-126, on the lines the scanner gives: the
    lines with their continuations.  [strip_conts] is the loop once the scanner
    is exhausted; each round drops a byte. *)
Fixpoint strip_conts (n : nat) (line : string) : string :=
  match n with
  | O => line
  | S n' => if is_line_continuation line then strip_conts n' (trim_suffix line "\") else line
  end.
Fixpoint logical_from (line : string) (ts : list string) : list string :=
  if is_line_continuation line then
    let line := trim_suffix line "\" in
    match ts with
    | [] => [strip_conts (String.length line) line]
    | t :: ts' => logical_from (line +s+ t) ts'
    end
  else line :: match ts with [] => [] | t :: ts' => logical_from t ts' end.
Definition logical (ts : list string) : list string :=
  match ts with [] => [] | t :: ts' => logical_from t ts' end.

Inductive req_err := RqOpen (path : string) | RqInclude (line : string) (e : req_err) | RqScan (path : string).
Definition pkg_key (p : Pkg) : string := p_name p +s+ "@" +s+ p_version p.
Definition put_pkg (m : list (string * Pkg)) (p : Pkg) : list (string * Pkg) := map_set (pkg_key p) p m.

Section WithFiles.
Variable it : Iter.
Variable files : string -> txt.
(** what a parse gives: packages or an error, and requiredAlready afterwards;
    None: not finished within the given depth of includes *)
Definition req_out := option ((req_err + list Pkg) * list string).
(** parse-requirements-txt.go:128-157 the loop over the lines of [path];
    [rec] parses an included file *)
Fixpoint req_lines (rec : string -> list string -> req_out) (path : string) (lines : list string)
    (m : list (string * Pkg)) (seen : list string) : option ((req_err + list (string * Pkg)) * list string) :=
  match lines with
  | [] => Some (inr m, seen)
  | line :: lines' =>
      let line := remove_comments line in
      let '(ar, ok) := cut_prefix line "-r " in
      if ok then
        let ar := path_join [path_dir path; ar] in
        if mem ar seen then req_lines rec path lines' m seen
        else
          let seen := set_add ar seen in
          match rec ar seen with
          | None => None
          | Some (inl e, seen) => Some (inl (RqInclude line e), seen)
          | Some (inr details, seen) => req_lines rec path lines' (fold_left put_pkg details m) seen
          end
      else if is_not_requirement_line line then req_lines rec path lines' m seen
      else req_lines rec path lines' (put_pkg m (parse_line line)) seen
  end.
(** parse-requirements-txt.go:105-166 parseRequirementsTxt *)
Fixpoint parse_req (depth : nat) (path : string) (seen : list string) : req_out :=
  match depth with
  | O => None
  | S depth' =>
      match files path with
      | Gone => Some (inl (RqOpen path), seen)
      | Text content fails =>
          let '(ts, too_long) := scan content in
          match req_lines (parse_req depth') path (logical ts) [] seen with
          | None => None
          | Some (inl e, seen) => Some (inl e, seen)
          | Some (inr m, seen) =>
              if too_long || fails then Some (inl (RqScan path), seen)
              else Some (inr (map_to_slice it m), seen)
          end
      end
  end.
(** parse-requirements-txt.go:101-103 ParseRequirementsTxt *)
Definition parse_requirements_txt (depth : nat) (path : string) : option (req_err + list Pkg) :=
  option_map fst (parse_req depth path []).
End WithFiles.
