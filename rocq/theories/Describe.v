(** pkg/database/osv.go:218-269 truncate and Describe *)
From Verif Require Import GoStr Utf8 Types Osv.

(** osv.go:222-238 the loop: [i] is the byte offset of the next rune; the
    result is the offset to cut at, or None if the loop ends.  truncateAt = -1
    is None. *)
Fixpoint trunc_loop (rs : list string) (limit i count : nat) (truncate_at : option nat) : option nat :=
  match rs with
  | [] => None
  | c :: rs' =>
      let truncate_at := if is_space_rune c then Some i else truncate_at in
      let count := count + 1 in
      if Nat.leb limit count then
        Some (match truncate_at with None => limit | Some n => n end)
      else trunc_loop rs' limit (i + String.length c) count truncate_at
  end.

(** osv.go:218-241 truncate *)
Definition truncate (str : string) (limit : nat) : string :=
  match trunc_loop (runes_of str) limit 0 0 None with
  | Some n => str_take n str +s+ "..."
  | None => str
  end.

(** osv.go:243-259 Describe *)
Definition describe (o : OSV) : string :=
  let description := o_summary o in
  let description := if seqb description "" then description +s+ truncate (o_details o) 80 else description in
  let description := if seqb description "" then description +s+ "(no details available)" else description in
  if negb (seqb (link o) "") then description +s+ " (" +s+ link o +s+ ")" else description.
