(** Advisories as JSON: json.Unmarshal into an OSV (pkg/database/osv.go:26-191;
    used in api-fetch.go:66, dir.go:74 and zip.go:160) and json.Marshal of one
    (reporter.go:75-87).  A value of the wrong type is remembered as an error and
    skipped, decoding goes on; a timestamp that cannot be parsed ends it.
    Simplifications: those of JsonDec.v (a
    repeated key replaces a list instead of merging with it); a timestamp is
    given to [rfc3339] unescaped. *)
From Verif Require Import GoStr Types Json MemDB.

Inductive status := Fine | Wrong | Ended.
Definition worse (a b : status) : status := match b with Fine => a | Wrong => match a with Ended => Ended | _ => Wrong end | Ended => Ended end.
(** fills an old value *)
Definition decoder (A : Type) := json -> A -> A * status.

Definition d_string : decoder string := fun v old =>
  match v with JStr s => (s, Fine) | JNull => (old, Fine) | _ => (old, Wrong) end.
Fixpoint d_elems {A} (d : decoder A) (zero : A) (l : list json) : list A * status :=
  match l with
  | [] => ([], Fine)
  | v :: l' =>
      match d v zero with
      | (a, Ended) => ([a], Ended)
      | (a, st) => let '(r, st') := d_elems d zero l' in (a :: r, worse st st')
      end
  end.
Definition d_list {A} (d : decoder A) (zero : A) : decoder (list A) := fun v old =>
  match v with JArr l => d_elems d zero l | JNull => ([], Fine) | _ => (old, Wrong) end.
Fixpoint d_members {S} (set : string -> decoder S) (l : list (string * json)) (s : S) : S * status :=
  match l with
  | [] => (s, Fine)
  | (k, v) :: l' =>
      match set (fold_key k) v s with
      | (s1, Ended) => (s1, Ended)
      | (s1, st) => let '(s2, st') := d_members set l' s1 in (s2, worse st st')
      end
  end.
Definition d_struct {S} (set : string -> decoder S) : decoder S := fun v old =>
  match v with JObj l => d_members set l old | JNull => (old, Fine) | _ => (old, Wrong) end.
(** one member *)
Definition on {S A} (d : decoder A) (get : S -> A) (put : A -> S -> S) (v : json) (s : S) : S * status :=
  let '(a, st) := d v (get s) in (put a s, st).

Section WithTime.
(** time.Time's UnmarshalJSON of a string, then MarshalJSON: the timestamp as it
    will be written; the empty text stands for the zero time *)
Variable rfc3339 : string -> option string.
Definition d_time : decoder string := fun v old =>
  match v with
  | JNull => (old, Fine)
  | JStr s => match rfc3339 s with Some t => (t, Fine) | None => ("", Ended) end
  | _ => (old, Ended)
  end.
(** *time.Time *)
Definition d_time_ptr : decoder (option string) := fun v old =>
  match v with
  | JNull => (None, Fine)
  | _ => let '(t, st) := d_time v (match old with Some t => t | None => "" end) in (Some t, st)
  end.

(** osv.go:28-31 *)
Definition d_opkg : decoder OPkg := d_struct (fun k =>
  if seqb k "name" then on d_string op_name (fun a s => mkOPkg a (op_eco s))
  else if seqb k "ecosystem" then on d_string op_eco (fun a s => mkOPkg (op_name s) a)
  else fun _ s => (s, Fine)).
(** osv.go:60-64 *)
Definition d_event : decoder Event := d_struct (fun k =>
  if seqb k "introduced" then on d_string introduced (fun a s => mkEv a (fixed s) (last_affected s))
  else if seqb k "fixed" then on d_string fixed (fun a s => mkEv (introduced s) a (last_affected s))
  else if seqb k "last_affected" then on d_string last_affected (fun a s => mkEv (introduced s) (fixed s) a)
  else fun _ s => (s, Fine)).
(** osv.go:66-69 *)
Definition d_range : decoder Range := d_struct (fun k =>
  if seqb k "type" then on d_string r_type (fun a s => mkRange a (r_events s))
  else if seqb k "events" then on (d_list d_event (mkEv "" "" "")) r_events (fun a s => mkRange (r_type s) a)
  else fun _ s => (s, Fine)).
(** osv.go:175-179 *)
Definition d_affected : decoder Affected := d_struct (fun k =>
  if seqb k "package" then on d_opkg a_pkg (fun a s => mkAff a (a_versions s) (a_ranges s))
  else if seqb k "versions" then on (d_list d_string "") a_versions (fun a s => mkAff (a_pkg s) a (a_ranges s))
  else if seqb k "ranges" then on (d_list d_range (mkRange "" [])) a_ranges (fun a s => mkAff (a_pkg s) (a_versions s) a)
  else fun _ s => (s, Fine)).
(** osv.go:182-191 *)
Definition d_osv : decoder OSV := d_struct (fun k =>
  if seqb k "id" then on d_string o_id (fun a s => mkOSV a (o_aliases s) (o_summary s) (o_published s) (o_modified s) (o_withdrawn s) (o_details s) (o_affected s))
  else if seqb k "aliases" then on (d_list d_string "") o_aliases (fun a s => mkOSV (o_id s) a (o_summary s) (o_published s) (o_modified s) (o_withdrawn s) (o_details s) (o_affected s))
  else if seqb k "summary" then on d_string o_summary (fun a s => mkOSV (o_id s) (o_aliases s) a (o_published s) (o_modified s) (o_withdrawn s) (o_details s) (o_affected s))
  else if seqb k "published" then on d_time o_published (fun a s => mkOSV (o_id s) (o_aliases s) (o_summary s) a (o_modified s) (o_withdrawn s) (o_details s) (o_affected s))
  else if seqb k "modified" then on d_time o_modified (fun a s => mkOSV (o_id s) (o_aliases s) (o_summary s) (o_published s) a (o_withdrawn s) (o_details s) (o_affected s))
  else if seqb k "withdrawn" then on d_time_ptr o_withdrawn (fun a s => mkOSV (o_id s) (o_aliases s) (o_summary s) (o_published s) (o_modified s) a (o_details s) (o_affected s))
  else if seqb k "details" then on d_string o_details (fun a s => mkOSV (o_id s) (o_aliases s) (o_summary s) (o_published s) (o_modified s) (o_withdrawn s) a (o_affected s))
  else if seqb k "affected" then on (d_list d_affected (mkAff (mkOPkg "" "") [] [])) o_affected (fun a s => mkOSV (o_id s) (o_aliases s) (o_summary s) (o_published s) (o_modified s) (o_withdrawn s) (o_details s) a)
  else fun _ s => (s, Fine)).
(** json.Unmarshal(content, &osv): the advisory as far as it was filled in, and
    whether there was an error.  The text is checked as a whole first. *)
Definition dec_osv (content : string) : OSV * bool :=
  match parse content with
  | None => (no_osv, true)
  | Some j => let '(o, st) := d_osv j no_osv in (o, match st with Fine => false | _ => true end)
  end.
End WithTime.

(** json.Marshal.  [nil]: how an empty list that is no [Versions] is printed
    (null for a nil slice, else []) *)
Section Enc.
Variable nil : json.
Definition enc_list {A} (e : A -> json) (l : list A) : json := match l with [] => nil | _ => JArr (map e l) end.
Definition omit_empty (k v : string) : list (string * json) := if seqb v "" then [] else [(k, JStr v)].
Definition enc_time (t : string) : json := JStr (if seqb t "" then "0001-01-01T00:00:00Z" else t).
Definition enc_event (e : Event) : json :=
  JObj (omit_empty "introduced" (introduced e) ++ omit_empty "fixed" (fixed e) ++ omit_empty "last_affected" (last_affected e)).
Definition enc_range (r : Range) : json := JObj [("type", JStr (r_type r)); ("events", enc_list enc_event (r_events r))].
(** osv.go:158-173 Versions.MarshalJSON prints an empty list as [] *)
Definition enc_affected (a : Affected) : json :=
  JObj ([("package", JObj [("name", JStr (op_name (a_pkg a))); ("ecosystem", JStr (op_eco (a_pkg a)))]);
         ("versions", JArr (map JStr (a_versions a)))]
        ++ match a_ranges a with [] => [] | rs => [("ranges", JArr (map enc_range rs))] end).
Definition enc_osv (o : OSV) : json :=
  JObj ([("id", JStr (o_id o)); ("aliases", enc_list JStr (o_aliases o)); ("summary", JStr (o_summary o));
         ("published", enc_time (o_published o)); ("modified", enc_time (o_modified o))]
        ++ match o_withdrawn o with Some t => [("withdrawn", enc_time t)] | None => [] end
        ++ [("details", JStr (o_details o)); ("affected", enc_list enc_affected (o_affected o))]).
End Enc.
