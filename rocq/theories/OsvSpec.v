(** What the OSV schema and PEP 503 prescribe, stated without the code's
    helpers. *)
From Verif Require Import GoStr Types.

(** versions of one ecosystem are totally pre-ordered *)
Record VersionOrder (cmp : string -> string -> Z) : Prop := {
  vo_refl : forall a, cmp a a = 0%Z;
  vo_anti : forall a b, (cmp a b < 0)%Z <-> (0 < cmp b a)%Z;
  vo_trans : forall a b c, (cmp a b <= 0 -> cmp b c <= 0 -> cmp a c <= 0)%Z
}.

Definition introduces (es : list Event) (i : string) : Prop :=
  i <> "" /\ exists e, In e es /\ introduced e = i.
Definition fixes (es : list Event) (f : string) : Prop :=
  f <> "" /\ exists e, In e es /\ fixed e = f.
Definition ends_at (es : list Event) (l : string) : Prop :=
  l <> "" /\ exists e, In e es /\ last_affected e = l.

(** OSV schema, evaluation of a range: v is affected iff some "introduced" at
    or below v ("0" is below everything) is not followed, up to v, by a
    "fixed" or by a "last_affected" strictly below v. *)
Definition in_range (cmp : string -> string -> Z) (es : list Event) (v : string) : Prop :=
  exists i, introduces es i
    /\ (i = "0" \/ (cmp i v <= 0)%Z)
    /\ (forall f, fixes es f -> (cmp f v <= 0)%Z -> i <> "0" /\ (cmp f i < 0)%Z)
    /\ (forall l, ends_at es l -> (cmp l v < 0)%Z -> i <> "0" /\ (cmp l i < 0)%Z).

(** each event object carries at most one kind of bound (OSV schema) *)
Definition one_kind (e : Event) : Prop :=
  (introduced e = "" \/ (fixed e = "" /\ last_affected e = ""))
  /\ (fixed e = "" \/ last_affected e = "").

(** at most one event introduces at "0" *)
Definition one_zero (es : list Event) : Prop :=
  List.length (filter (fun e => seqb (introduced e) "0") es) <= 1.

(** no version is both where the vulnerability starts and where it ends *)
Definition no_ties (cmp : string -> string -> Z) (es : list Event) : Prop :=
  forall i x, introduces es i -> i <> "0" -> fixes es x \/ ends_at es x -> cmp i x <> 0%Z.

Record wf_events (cmp : string -> string -> Z) (es : list Event) : Prop := {
  we_kind : Forall one_kind es;
  we_zero : one_zero es;
  we_ties : no_ties cmp es
}.

(** every version involved can be parsed *)
Definition event_versions (e : Event) : list string :=
  filter (fun v => negb (seqb v "")) [introduced e; fixed e; last_affected e].
Definition parseable (sem : Semantic) (eco : string) (es : list Event) : Prop :=
  forall e v, In e es -> In v (event_versions e) \/ (event_versions e = [] /\ v = "") ->
    sem_ok sem eco v = true.

Definition version_typed (r : Range) : Prop := r_type r = "ECOSYSTEM" \/ r_type r = "SEMVER".

(** the ranges of an affected entry that are looked at: those before the first
    range of another type *)
Definition ranges_cover (cmp : string -> string -> Z) (rs : list Range) (v : string) : Prop :=
  exists before r after, rs = before ++ r :: after
    /\ Forall version_typed before /\ version_typed r
    /\ in_range cmp (r_events r) v.

(** everything before / after the first colon *)
Definition eco_parts (e base suffix : string) : Prop :=
  (has_char ":" base = false /\ e = base +s+ ":" +s+ suffix)
  \/ (has_char ":" e = false /\ base = e /\ suffix = "").

Definition same_ecosystem (a b : string) : Prop :=
  exists ba sa bb sb, eco_parts a ba sa /\ eco_parts b bb sb /\
    ba = bb /\ (sa = "" \/ sb = "" \/ sa = sb).

(** PEP 503: lower-case, each maximal run of - _ . becomes one - *)
Definition pep_sep (c : ascii) : bool := mem (String c "") ["-"; "_"; "."].
Fixpoint collapse (in_run : bool) (s : string) : string :=
  match s with
  | "" => ""
  | String c t =>
      if pep_sep c then (if in_run then collapse true t else String "-" (collapse true t))
      else String c (collapse false t)
  end.
Definition pep503 (s : string) : string := str_map lower_char (collapse false s).

(** the name under which an advisory's package is matched *)
Definition match_name (p : OPkg) (n : string) : Prop :=
  exists base suf, eco_parts (op_eco p) base suf /\
    ((base = "PyPI" /\ n = pep503 (op_name p)) \/ (base <> "PyPI" /\ n = op_name p)).

Definition entry_affects (sem : Semantic) (a : Affected) (pkg : Pkg) : Prop :=
  same_ecosystem (op_eco (a_pkg a)) (p_eco pkg)
  /\ match_name (a_pkg a) (p_name pkg)
  /\ (a_ranges a <> [] \/ a_versions a <> [])
  /\ (p_version pkg = ""
      \/ In (p_version pkg) (a_versions a)
      \/ ranges_cover (sem_cmp sem (p_cmp pkg)) (a_ranges a) (p_version pkg)).

(** advisories this package can be decided for: well-formed, parseable *)
Definition wf_range (sem : Semantic) (eco : string) (r : Range) : Prop :=
  wf_events (sem_cmp sem eco) (r_events r) /\ parseable sem eco (r_events r).
Definition wf_osv (sem : Semantic) (eco : string) (o : OSV) : Prop :=
  forall a r, In a (o_affected o) -> In r (a_ranges a) -> wf_range sem eco r.

(** equal up to the order of the events inside ranges *)
Definition range_same (r r' : Range) : Prop :=
  r_type r = r_type r' /\ Permutation (r_events r) (r_events r').
Definition affected_same (a a' : Affected) : Prop :=
  a_pkg a = a_pkg a' /\ a_versions a = a_versions a' /\ Forall2 range_same (a_ranges a) (a_ranges a').
Record osv_same (o o' : OSV) : Prop := {
  os_id : o_id o = o_id o';
  os_aliases : o_aliases o = o_aliases o';
  os_summary : o_summary o = o_summary o';
  os_published : o_published o = o_published o';
  os_modified : o_modified o = o_modified o';
  os_withdrawn : o_withdrawn o = o_withdrawn o';
  os_details : o_details o = o_details o';
  os_affected : Forall2 affected_same (o_affected o) (o_affected o')
}.

(** two advisories describe the same problem: same ID, or one lists the
    other's ID as alias, or they share an alias *)
Definition related (a b : OSV) : Prop :=
  o_id a = o_id b \/ In (o_id a) (o_aliases b) \/ In (o_id b) (o_aliases a)
  \/ exists x, In x (o_aliases a) /\ In x (o_aliases b).

(** a range whose evaluation for this package involves a version that cannot be
    parsed *)
Definition unparseable_event (sem : Semantic) (eco : string) (e : Event) : Prop :=
  introduced e <> "0" /\ sem_ok sem eco (hd "" (event_versions e)) = false.
(** [compared]: the positions of the events compared by the sorting algorithm *)
Definition crashes (compared : list (nat * nat)) (sem : Semantic) (pkg : Pkg) (r : Range) : Prop :=
  version_typed r /\ r_events r <> []
  /\ (sem_ok sem (p_cmp pkg) (p_version pkg) = false
      \/ exists i j e other, In (i, j) compared
           /\ nth_error (r_events r) i = Some e /\ nth_error (r_events r) j = Some other
           /\ unparseable_event sem (p_cmp pkg) e /\ introduced other <> "0").
(** whatever the algorithm *)
Definition crash_range (sem : Semantic) (pkg : Pkg) (r : Range) : Prop :=
  version_typed r /\ r_events r <> []
  /\ (sem_ok sem (p_cmp pkg) (p_version pkg) = false
      \/ exists i j e other, i <> j /\ nth_error (r_events r) i = Some e /\ nth_error (r_events r) j = Some other
           /\ unparseable_event sem (p_cmp pkg) e /\ introduced other <> "0").
