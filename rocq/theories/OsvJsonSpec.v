(** Advisory documents (https://ossf.github.io/osv-schema), as far as they are used. *)
From Verif Require Import GoStr Types Json.

(** the one member with a key, ignoring case; or that there is none *)
Definition keyed (k : string) (l : list (string * json)) : Prop := exists k' v, In (k', v) l /\ fold_key k' = k.
Inductive member (l : list (string * json)) (k : string) : option json -> Prop :=
| mb_none : ~ keyed k l -> member l k None
| mb_some : forall l1 k' v l2, l = l1 ++ (k', v) :: l2 -> fold_key k' = k -> ~ keyed k l1 -> ~ keyed k l2 -> member l k (Some v).
(** no object has two members with the same key, ignoring case *)
Fixpoint no_repeats (j : json) : Prop :=
  match j with
  | JArr l => fold_right (fun v P => no_repeats v /\ P) True l
  | JObj l => NoDup (map (fun kv => fold_key (fst kv)) l) /\ fold_right (fun kv P => no_repeats (snd kv) /\ P) True l
  | _ => True
  end.

(** ** values; leaving a member out, or null, means the empty one *)
Definition unset (v : option json) : Prop := v = None \/ v = Some JNull.
Definition says (v : option json) (s : string) : Prop := v = Some (JStr s) \/ unset v /\ s = "".
Definition lists {A} (P : json -> A -> Prop) (v : option json) (l : list A) : Prop :=
  (exists js, v = Some (JArr js) /\ Forall2 P js l) \/ unset v /\ l = [].
Definition texts (v : option json) (l : list string) : Prop := lists (fun j s => says (Some j) s) v l.
(** an element of a list of texts that need not be a text *)
Definition text_or_blank (v : json) (s : string) : Prop := v = JStr s \/ (forall t, v <> JStr t) /\ s = "".

Section WithTime.
Variable rfc3339 : string -> option string.
Definition time_is (v : option json) (t : string) : Prop := (exists s, v = Some (JStr s) /\ rfc3339 s = Some t) \/ unset v /\ t = "".
Definition maybe_time (v : option json) (t : option string) : Prop := (exists s x, v = Some (JStr s) /\ rfc3339 s = Some x /\ t = Some x) \/ unset v /\ t = None.

(** ** documents *)
Inductive package_doc : option json -> OPkg -> Prop :=
| pd_unset : forall v, unset v -> package_doc v (mkOPkg "" "")
| pd_doc : forall l p name eco, member l "name" name -> member l "ecosystem" eco -> says name (op_name p) -> says eco (op_eco p) ->
    package_doc (Some (JObj l)) p.
Inductive event_doc : json -> Event -> Prop :=
| ed_null : event_doc JNull (mkEv "" "" "")
| ed_doc : forall l e a b c, member l "introduced" a -> member l "fixed" b -> member l "last_affected" c ->
    says a (introduced e) -> says b (fixed e) -> says c (last_affected e) -> event_doc (JObj l) e.
Inductive range_doc : json -> Range -> Prop :=
| rd_null : range_doc JNull (mkRange "" [])
| rd_doc : forall l r t es, member l "type" t -> member l "events" es -> says t (r_type r) -> lists event_doc es (r_events r) -> range_doc (JObj l) r.
Inductive affected_doc : json -> Affected -> Prop :=
| ad_null : affected_doc JNull (mkAff (mkOPkg "" "") [] [])
| ad_doc : forall l a p vs rs, member l "package" p -> member l "versions" vs -> member l "ranges" rs ->
    package_doc p (a_pkg a) -> texts vs (a_versions a) -> lists range_doc rs (a_ranges a) -> affected_doc (JObj l) a.
Inductive osv_doc : json -> OSV -> Prop :=
| od_null : osv_doc JNull (mkOSV "" [] "" "" "" None "" [])
| od_doc : forall l o id al su pu mo wi de af,
    member l "id" id -> member l "aliases" al -> member l "summary" su -> member l "published" pu -> member l "modified" mo ->
    member l "withdrawn" wi -> member l "details" de -> member l "affected" af ->
    says id (o_id o) -> texts al (o_aliases o) -> says su (o_summary o) -> time_is pu (o_published o) -> time_is mo (o_modified o) ->
    maybe_time wi (o_withdrawn o) -> says de (o_details o) -> lists affected_doc af (o_affected o) -> osv_doc (JObj l) o.
End WithTime.

(** ** writing *)
(** an empty list other than "versions" is written in either way *)
Definition nil_ok (nil : json) : Prop := nil = JNull \/ nil = JArr [].
(** the timestamps of an advisory as written; the zero time is the year 1 *)
Definition stamp (t : string) : string := match t with "" => "0001-01-01T00:00:00Z" | _ => t end.
Definition stamps (o : OSV) : list string := [o_published o; o_modified o] ++ match o_withdrawn o with Some t => [t] | None => [] end.
(** its other texts *)
Definition event_texts (e : Event) : list string := [introduced e; fixed e; last_affected e].
Definition range_texts (r : Range) : list string := r_type r :: flat_map event_texts (r_events r).
Definition affected_texts (a : Affected) : list string := [op_name (a_pkg a); op_eco (a_pkg a)] ++ a_versions a ++ flat_map range_texts (a_ranges a).
Definition osv_texts (o : OSV) : list string := [o_id o; o_summary o; o_details o] ++ o_aliases o ++ flat_map affected_texts (o_affected o).
(** texts are UTF-8, and the timestamps are what [rfc3339] gives for them as written *)
Definition utf8 (s : string) : Prop := to_valid s = s.
Definition sound (rfc3339 : string -> option string) (o : OSV) : Prop :=
  Forall utf8 (osv_texts o) /\ (forall t, In t (stamps o) -> utf8 t /\ rfc3339 (stamp t) = Some t).
(** a timestamp parser whose answers, written out, are read as themselves *)
Definition settles (rfc3339 : string -> option string) : Prop :=
  rfc3339 (stamp "") = Some "" /\ (forall s t, rfc3339 s = Some t -> utf8 t /\ rfc3339 (stamp t) = Some t).
