(** Gemfile.lock: lines, sections, spec lines. *)
From Verif Require Import GoStr Types Scan LockIO LockSpec.
Local Open Scope string_scope.

(** the lines of a text: each ends in a newline, with or without a carriage
    return before it, except for the last *)
Inductive raw_lines : string -> list string -> Prop :=
| rl_last : forall x, has_char "010" x = false -> raw_lines x [x]
| rl_crlf : forall x rest ls, has_char "010" x = false -> raw_lines rest ls -> raw_lines (x +s+ String "013" (String "010" rest)) (x :: ls)
| rl_lf : forall x rest ls, has_char "010" x = false -> (forall y, x <> y +s+ String "013" "") -> raw_lines rest ls -> raw_lines (x +s+ String "010" rest) (x :: ls).
(** ** sections *)
Definition source_words : list string := ["GIT"; "GEM"; "PATH"; "PLUGIN SOURCE"].
Definition source_header (l : string) : Prop := In l source_words.
Definition quiet (l : string) : Prop := forall w a b, In w source_words -> l <> a +s+ w +s+ b.
Definition blank (c : ascii) : Prop := In c ["009"%char; "010"%char; "012"%char; "013"%char; " "%char].
Definition indented (l : string) : Prop := l = "" \/ exists c t, l = String c t /\ blank c.
(** a section: a line that is not indented or has one of the words in it, and
    the lines after it *)
Definition section := (string * list string)%type.
Definition opens (l : string) : Prop := ~ quiet l \/ ~ indented l.
Definition section_ok (s : section) : Prop := opens (fst s) /\ Forall (fun l => ~ opens l) (snd s).
Definition gem_sections (ls : list string) (ss : list section) : Prop :=
  exists pre, Forall (fun l => ~ opens l) pre /\ Forall section_ok ss /\ ls = (pre ++ flat_map (fun s => fst s :: snd s) ss)%list.
(** ** spec lines *)
(** a version, without the platform after the dash *)
Definition before_dash (inner v : string) : Prop := has_char "-" v = false /\ (inner = v \/ exists p, inner = v +s+ "-" +s+ p).
Definition bang (b : string) : Prop := b = "" \/ b = "!".
(** what may follow a name: maybe a version in parentheses, maybe an
    exclamation mark *)
Definition gem_tail (t v : string) : Prop :=
  bang t /\ v = "" \/ exists inner b, bang b /\ t = " (" +s+ inner +s+ ")" +s+ b /\ before_dash inner v.
(** the name is what comes before the earliest such thing *)
Definition gem_spec (body name v : string) : Prop :=
  exists t, body = name +s+ t /\ gem_tail t v /\ forall n' t' v', body = n' +s+ t' -> gem_tail t' v' -> String.length name <= String.length n'.
Definition spec_line (l name v : string) : Prop := exists body, l = "    " +s+ body /\ (forall r, body <> " " +s+ r) /\ gem_spec body name v.
Definition revision_line (l c : string) : Prop := l = "  revision: " +s+ c.
Definition other_line (l : string) : Prop := (forall c, ~ revision_line l c) /\ forall n v, ~ spec_line l n v.
(** ** what a source section makes, with the commit known so far *)
Inductive section_makes : string -> list string -> list Pkg -> Prop :=
| sm_nil : forall c, section_makes c [] []
| sm_revision : forall c l c' ls ps, revision_line l c' -> section_makes c' ls ps -> section_makes c (l :: ls) ps
| sm_spec : forall c l n v ls ps, spec_line l n v -> section_makes c ls ps -> section_makes c (l :: ls) (mkPkg n v c "RubyGems" "RubyGems" :: ps)
| sm_other : forall c l ls ps, other_line l -> section_makes c ls ps -> section_makes c (l :: ls) ps.
(** the sections that count are those whose first line has one of the words in
    it; the first line is itself read like the others *)
Inductive sections_make : list section -> list Pkg -> Prop :=
| ss_nil : sections_make [] []
| ss_source : forall h b ss ps qs, ~ quiet h -> section_makes "" (h :: b) ps -> sections_make ss qs -> sections_make ((h, b) :: ss) (ps ++ qs)
| ss_other : forall h b ss qs, quiet h -> sections_make ss qs -> sections_make ((h, b) :: ss) qs.
(** the usual files: the words are nowhere but in the headers *)
Inductive usual_sections : list section -> list Pkg -> Prop :=
| us_nil : usual_sections [] []
| us_source : forall h b ss ps qs, source_header h -> section_makes "" b ps -> usual_sections ss qs -> usual_sections ((h, b) :: ss) (ps ++ qs)
| us_other : forall h b ss qs, quiet h -> usual_sections ss qs -> usual_sections ((h, b) :: ss) qs.
