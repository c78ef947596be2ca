(** yarn.lock: blocks, headers, version and resolution lines. *)
From Verif Require Import GoStr Types Scan LockIO Commit CommitSpec LockSpec.

(** the file can be read and has these lines *)
Definition file_lines (files : string -> txt) (path : string) (ls : list string) : Prop :=
  exists content, files path = Text content false /\ scan content = (ls, false).
(** the lines that count: not empty, not comments *)
Definition counts (l : string) : Prop := l <> "" /\ forall t, l <> "#" +s+ t.
Inductive counted : list string -> list string -> Prop :=
| ct_nil : counted [] []
| ct_keep : forall l ls ks, counts l -> counted ls ks -> counted (l :: ls) (l :: ks)
| ct_skip : forall l ls ks, ~ counts l -> counted ls ks -> counted (l :: ls) ks.
Definition indented (l : string) : Prop := exists t, l = " " +s+ t.
(** blocks: a line that is not indented and the indented ones after it (the
    first block may lack the former) *)
Record yarn_blocks (ls : list string) (bs : list (list string)) : Prop := mkBlocks {
  yb_lines : counted ls (concat bs);
  yb_some : Forall (fun b => b <> []) bs;
  yb_tail : forall h t, In (h :: t) bs -> Forall indented t;
  yb_head : forall b bs' h t, bs = b :: bs' -> In (h :: t) bs' -> ~ indented h }.

Definition quote : string := String "034" "".
(** ** headers *)
Definition clean_name (n : string) : Prop := npm_name n /\ has_char "034" n = false /\ has_char "," n = false.
(** name@range; alias@npm:name@range; name *)
Inductive entry_name : string -> string -> Prop :=
| en_range : forall n r, clean_name n -> (forall t, r = "npm:" +s+ t -> has_char "@" t = false) -> entry_name (n +s+ "@" +s+ r) n
| en_bare : forall n, clean_name n -> entry_name n n
| en_alias : forall a t n, clean_name a -> has_char "@" t = true -> entry_name t n -> entry_name (a +s+ "@npm:" +s+ t) n.
(** the first of the entries, which may be quoted together *)
Definition header_name (h n : string) : Prop :=
  exists q e rest, (q = "" \/ q = quote) /\ has_char "," e = false /\ (rest = "" \/ exists r, rest = "," +s+ r) /\ h = q +s+ e +s+ rest /\ entry_name e n.
(** ** lines *)
Definition maybe (c s : string) : Prop := s = "" \/ s = c.
Definition version_text (v : string) : Prop :=
  v <> "" /\ str_forall (fun c => is_word c || Ascii.eqb c "-" || Ascii.eqb c "." || Ascii.eqb c "+") v = true.
Definition version_line (l v : string) : Prop :=
  exists q1 q2 k q3 q4, maybe quote q1 /\ maybe quote q2 /\ maybe ":" k /\ maybe quote q3 /\ maybe quote q4 /\ version_text v
    /\ l = "  " +s+ q1 +s+ "version" +s+ q2 +s+ k +s+ " " +s+ q3 +s+ v +s+ q4.
Definition resolution_line (l r : string) : Prop :=
  exists q1 q2 k, maybe quote q1 /\ maybe quote q2 /\ In k ["resolution:"; "resolved"]
    /\ r <> "" /\ has_char " " r = false /\ has_char "'" r = false /\ has_char "034" r = false
    /\ l = "  " +s+ q1 +s+ k +s+ q2 +s+ " " +s+ quote +s+ r +s+ quote.
(** the first line of a kind; "" when there is none *)
Inductive first_in (P : string -> string -> Prop) : list string -> string -> Prop :=
| fi_here : forall l ls v, P l v -> first_in P (l :: ls) v
| fi_later : forall l ls v, (forall w, ~ P l w) -> first_in P ls v -> first_in P (l :: ls) v
| fi_none : first_in P [] "".
(** metadata, and the project itself *)
Definition skipped (h : string) : Prop := h = "__metadata:" \/ exists q, h = q +s+ "@workspace:." +s+ quote +s+ ":".
Definition block_package (url : string -> option Url) (b : list string) (p : Pkg) : Prop :=
  exists h t v r c, b = h :: t /\ first_in version_line b v /\ first_in resolution_line b r /\ resolution_commit url r c
    /\ p_version p = v /\ p_commit p = c /\ p_eco p = "npm" /\ p_cmp p = "npm"
    /\ forall n, header_name h n -> p_name p = n.
Definition block_makes (url : string -> option Url) (b : list string) (o : option Pkg) : Prop :=
  exists h t, b = h :: t /\ ((skipped h /\ o = None) \/ (~ skipped h /\ exists p, o = Some p /\ block_package url b p)).
