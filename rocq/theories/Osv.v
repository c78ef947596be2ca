(** pkg/database/osv.go *)
From Verif Require Import GoStr GoSort Regex Types.

(** osv.go:22-24 *)
Definition TypeSemver : string := "SEMVER".
Definition TypeEcosystem : string := "ECOSYSTEM".
Definition TypeGit : string := "GIT".

(** pkg/lockfile/parse-requirements-txt.go:13 *)
Definition PipEcosystem : string := "PyPI".

(** osv.go:35-39 NormalizedEcosystem *)
Definition normalized_ecosystem (p : OPkg) : string := cut_before (op_eco p) ":".

(** osv.go:55, the expression [-_.]+ *)
Definition is_name_sep (c : ascii) : bool :=
  Ascii.eqb c "-" || Ascii.eqb c "_" || Ascii.eqb c ".".
Definition re_name_seps : re := Plus true (Cls is_name_sep).

(** osv.go:49-58 NormalizedName.  [to_lower] is strings.ToLower on ASCII;
    non-ASCII letters are left alone (simplification). *)
Definition normalized_name (p : OPkg) : string :=
  if negb (seqb (normalized_ecosystem p) PipEcosystem) then op_name p
  else to_lower (replace_all re_name_seps "-" (op_name p)).

(** osv.go:71-85 version *)
Definition ev_version (e : Event) : string :=
  if negb (seqb (introduced e) "") then introduced e
  else if negb (seqb (fixed e) "") then fixed e
  else if negb (seqb (last_affected e) "") then last_affected e
  else "".

(** osv.go:98-114 the comparison given to sort.Slice *)
Definition ev_less (sem : Semantic) (eco : string) (a b : Event) : bool :=
  if seqb (introduced a) "0" then true
  else if seqb (introduced b) "0" then false
  else Z.ltb (sem_cmp sem eco (ev_version a) (ev_version b)) 0.

(** osv.go:102-111 whether one call of it panics in MustParse *)
Definition less_panics (sem : Semantic) (eco : string) (a b : Event) : bool :=
  negb (seqb (introduced a) "0") && negb (seqb (introduced b) "0") && negb (sem_ok sem eco (ev_version a)).

(** osv.go:117-130 one iteration of the loop *)
Definition ev_step (sem : Semantic) (pkg : Pkg) (affected : bool) (e : Event) : bool :=
  if affected then
    if negb (seqb (fixed e) "") then
      Z.ltb (sem_cmp sem (p_cmp pkg) (p_version pkg) (fixed e)) 0
    else if negb (seqb (last_affected e) "") then
      seqb (last_affected e) (p_version pkg)
      || Z.leb (sem_cmp sem (p_cmp pkg) (p_version pkg) (last_affected e)) 0
    else affected
  else if negb (seqb (introduced e) "") then
    seqb (introduced e) "0"
    || Z.geb (sem_cmp sem (p_cmp pkg) (p_version pkg) (introduced e)) 0
  else affected.

Section WithSort.
Variable S : Sorter.

(** some call made while sorting panics *)
Definition sort_panics (sem : Semantic) (eco : string) (es : list Event) : bool :=
  existsb (fun '(i, j) => match nth_error es i, nth_error es j with
                          | Some a, Some b => less_panics sem eco a b
                          | _, _ => false
                          end) (comparisons S Event (ev_less sem eco) es).

(** osv.go:87-133 containsVersion.  sort.Slice reorders ar.Events in place, so
    the range as left behind is returned with the verdict. *)
Definition contains_version (sem : Semantic) (ar : Range) (pkg : Pkg) : res (bool * Range) :=
  if negb (seqb (r_type ar) TypeEcosystem) && negb (seqb (r_type ar) TypeSemver)
  then Ok (false, ar)
  else if Nat.eqb (List.length (r_events ar)) 0 then Ok (false, ar)
  else if negb (sem_ok sem (p_cmp pkg) (p_version pkg)) then Panic
  else if sort_panics sem (p_cmp pkg) (r_events ar) then Panic
  else
    let es := S Event (ev_less sem (p_cmp pkg)) (r_events ar) in
    Ok (fold_left (ev_step sem pkg) es false, mkRange (r_type ar) es).

(** osv.go:139-150 affectsVersion *)
Fixpoint affects_version (sem : Semantic) (rs : list Range) (pkg : Pkg) : res (bool * list Range) :=
  match rs with
  | [] => Ok (false, [])
  | r :: rs' =>
      if negb (seqb (r_type r) TypeEcosystem) && negb (seqb (r_type r) TypeSemver)
      then Ok (false, r :: rs')
      else rbind (contains_version sem r pkg) (fun '(b, r') =>
           if b then Ok (true, r' :: rs')
           else rbind (affects_version sem rs' pkg) (fun '(b', rs'') => Ok (b', r' :: rs'')))
  end.

(** osv.go:271-282 areEcosystemsEqual *)
Definition ecosystems_equal (a b : string) : bool :=
  let ae := cut_before a ":" in let asuf := cut_after a ":" in
  let be := cut_before b ":" in let bsuf := cut_after b ":" in
  if negb (seqb asuf "") && negb (seqb bsuf "")
  then seqb ae be && seqb asuf bsuf
  else seqb ae be.

(** osv.go:284-313 IsAffected: the loop over osv.Affected, returning the
    entries as left behind (their events may have been reordered).  The notice
    printed on stderr for an entry without ranges and versions is in
    Warnings.v. *)
Fixpoint affected_loop (sem : Semantic) (l : list Affected) (pkg : Pkg) : res (bool * list Affected) :=
  match l with
  | [] => Ok (false, [])
  | a :: l' =>
      let next a' := rbind (affected_loop sem l' pkg) (fun '(b, l'') => Ok (b, a' :: l'')) in
      if ecosystems_equal (op_eco (a_pkg a)) (p_eco pkg)
         && seqb (normalized_name (a_pkg a)) (p_name pkg)
      then
        if Nat.eqb (List.length (a_ranges a)) 0 && Nat.eqb (List.length (a_versions a)) 0
        then next a
        else if mem (p_version pkg) (a_versions a) then Ok (true, a :: l')
        else rbind (affects_version sem (a_ranges a) pkg) (fun '(b, rs) =>
             let a' := mkAff (a_pkg a) (a_versions a) rs in
             if b then Ok (true, a' :: l')
             else if seqb (p_version pkg) "" then Ok (true, a' :: l')
             else next a')
      else next a
  end.

Definition set_affected (o : OSV) (l : list Affected) : OSV :=
  mkOSV (o_id o) (o_aliases o) (o_summary o) (o_published o) (o_modified o)
        (o_withdrawn o) (o_details o) l.

Definition is_affected (sem : Semantic) (o : OSV) (pkg : Pkg) : res (bool * OSV) :=
  rbind (affected_loop sem (o_affected o) pkg) (fun '(b, l) => Ok (b, set_affected o l)).
End WithSort.

(** osv.go:193-201 isAliasOf *)
Definition is_alias_of (osv vulnerability : OSV) : bool :=
  existsb (fun alias => seqb (o_id osv) alias || mem alias (o_aliases osv))
          (o_aliases vulnerability).

(** osv.go:203-211 AffectsEcosystem *)
Definition affects_ecosystem (o : OSV) (eco : string) : bool :=
  existsb (fun a => seqb (op_eco (a_pkg a)) eco) (o_affected o).

(** osv.go:263-269 Link *)
Definition link (o : OSV) : string :=
  if has_prefix (o_id o) "GHSA" then "https://github.com/advisories/" +s+ o_id o else "".

(** vulnerabilities.go:22-37 Includes *)
Definition includes (vs : list OSV) (v : OSV) : bool :=
  existsb (fun osv => seqb (o_id osv) (o_id v) || is_alias_of osv v || is_alias_of v osv) vs.

(** vulnerabilities.go:10-20 Unique *)
Definition unique (vs : list OSV) : list OSV :=
  fold_left (fun acc v => if includes acc v then acc else acc ++ [v]) vs [].
