From Verif Require Import GoStr Utf8 Types.

Definition concat_s (l : list string) : string := fold_right String.append "" l.

(** [out] is [s] shortened to fewer than [limit] characters: nothing happens
    below [limit] characters; otherwise the text stops before the last
    white-space character among the first [limit] ones, or, if they are all
    non-blank, after [limit] bytes, and an ellipsis follows. *)
Definition shortened (s : string) (limit : nat) (out : string) : Prop :=
  (List.length (runes_of s) < limit /\ out = s)
  \/ (limit <= List.length (runes_of s)
      /\ Forall (fun c => is_space_rune c = false) (firstn limit (runes_of s))
      /\ out = str_take limit s +s+ "...")
  \/ (limit <= List.length (runes_of s)
      /\ exists before sp between, firstn limit (runes_of s) = before ++ sp :: between
         /\ is_space_rune sp = true /\ Forall (fun c => is_space_rune c = false) between
         /\ out = concat_s before +s+ "...").

(** the text shown for an advisory *)
Definition described (o : OSV) (out : string) : Prop :=
  exists text, out = text +s+ (if has_prefix (o_id o) "GHSA"
                               then " (https://github.com/advisories/" +s+ o_id o +s+ ")" else "")
    /\ ((o_summary o <> "" /\ text = o_summary o)
        \/ (o_summary o = "" /\ o_details o <> "" /\ shortened (o_details o) 80 text)
        \/ (o_summary o = "" /\ o_details o = "" /\ text = "(no details available)")).
