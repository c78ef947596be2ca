(** pkg/lockfile/parse-gradle-lock.go, parse-mix-lock.go *)
From Verif Require Import GoStr Types Regex Scan Ecosystems LockIO.
Local Open Scope string_scope.

Section WithEnv.
Variable files : string -> txt.
(** the loop over the lines of a file: what each adds, and says on stderr *)
Definition line_parser (line : string -> option Pkg * list string) (path : string) : pres * list string :=
  match files path with
  | Gone => (fails_with (FRead path), [])
  | Text content fails =>
      let '(lines, too_long) := scan content in
      let said := flat_map (fun l => snd (line l)) lines in
      if too_long || fails then (fails_with (FScan path), said)
      else (packages_of (flat_map (fun l => match fst (line l) with Some p => [p] | None => [] end) lines), said)
  end.
End WithEnv.

(** ** gradle *)
(** parse-gradle-lock.go:10-12 isNotGradleDependencyLine *)
Definition is_not_gradle_line (line : string) : bool := has_prefix line "#" || has_prefix line "empty=".
(** parse-gradle-lock.go:14-29 parseGradleLine; inl: the error's text *)
Definition parse_gradle_line (line : string) : string + Pkg :=
  match split3 ":" line with
  | [group; artifact; version] => inr (mkPkg (group +s+ ":" +s+ artifact) (cut_before version "=") "" MavenEcosystem MavenEcosystem)
  | _ => inl ("invalid line in gradle lockfile: " +s+ line)
  end.
(** parse-gradle-lock.go:42-56 *)
Definition gradle_line (text : string) : option Pkg * list string :=
  let lock_line := trim_space text in
  if is_not_gradle_line lock_line then (None, [])
  else match parse_gradle_line lock_line with
       | inl err => (None, ["skipping " +s+ err])
       | inr pkg => (Some pkg, [])
       end.
(** parse-gradle-lock.go:31-63 ParseGradleLock *)
Definition parse_gradle_lock (files : string -> txt) (path : string) : pres * list string := line_parser files gradle_line path.

(** ** mix *)
Definition dquote : ascii := "034".
(** parse-mix-lock.go:22 *)
Definition re_mix : re :=
  Seqs [Bol; Plus true (Chr " "); Chr dquote; Cap 1 (Plus true Word); Lit (String dquote ": {"); Plus true Dot; Chr ","; Eol].
(** parse-mix-lock.go:60-61 *)
Definition trim_one_quote (s : string) : string := trim_suffix (trim_prefix s (String dquote "")) (String dquote "").
Definition mix_complaint : string := "Found less than four fields when parsing a line that looks like a dependency in a mix.lock - please report this!".
(** parse-mix-lock.go:28-74 *)
Definition mix_line (line : string) : option Pkg * list string :=
  match find re_mix line with
  | None => (None, [])
  | Some m =>
      match fields_char "," line with
      | f0 :: _ :: f2 :: f3 :: _ =>
          let version := trim_one_quote (trim_space f2) in
          let commit := trim_one_quote (trim_space f3) in
          let '(version, commit) := if has_suffix f0 ":git" then ("", version) else (version, commit) in
          (Some (mkPkg (group m 1) version commit MixEcosystem MixEcosystem), [])
      | _ => (None, [mix_complaint])
      end
  end.
(** parse-mix-lock.go:14-81 ParseMixLock *)
Definition parse_mix_lock (files : string -> txt) (path : string) : pres * list string := line_parser files mix_line path.
