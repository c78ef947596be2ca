(** C54: Gemfile.lock *)
From Verif Require Import GoStr GoStrFacts Types Regex Scan LockIO LockSpec GemLock GemSpec GemProofs PropsListLocks.
Local Open Scope string_scope.

Theorem C54_gem : forall files path content ls ss, files path = Text content false -> raw_lines content ls -> gem_sections ls ss ->
  exists ps, parse_gemfile_lock files path = Some (Ok (inr ps)) /\ sections_make ss ps.
Proof. exact gem_lock. Qed.
Print Assumptions C54_gem.
(** every text has its lines and its sections, and there is one way to read them *)
Theorem C54_total : forall content, exists ls ss, raw_lines content ls /\ gem_sections ls ss.
Proof.
  intros content. destruct (raw_total (S (String.length content)) content (le_n _)) as (ls & R). destruct (sections_total ls) as (ss & G). exists ls, ss. auto.
Qed.
Print Assumptions C54_total.
Theorem C54_unique : forall content ls ls' ss ss' ps qs, raw_lines content ls -> raw_lines content ls' -> gem_sections ls ss -> gem_sections ls' ss' ->
  sections_make ss ps -> sections_make ss' qs -> ls = ls' /\ ss = ss' /\ ps = qs.
Proof.
  intros content ls ls' ss ss' ps qs R R' S S' M M'. pose proof (raw_fun _ _ R _ R') as <-. pose proof (sections_only _ _ _ S S') as <-. repeat split. exact (sections_fun _ _ M _ M').
Qed.
Print Assumptions C54_unique.
(** when the words of the headers are nowhere else *)
Theorem C54_usual : forall files path content ls ss, files path = Text content false -> raw_lines content ls -> gem_sections ls ss ->
  Forall (fun s : section => source_header (fst s) \/ quiet (fst s)) ss ->
  exists ps, parse_gemfile_lock files path = Some (Ok (inr ps)) /\ usual_sections ss ps.
Proof.
  intros files path content ls ss F R S U. destruct (gem_lock files path content ls ss F R S) as (ps & E & M). exists ps. split; [exact E|]. exact (usual_make ss ps U M).
Qed.
Print Assumptions C54_usual.
(** the process is never ended *)
Theorem C54_no_fatal : forall files path, exists r, parse_gemfile_lock files path = Some r.
Proof. exact gem_never_fatal. Qed.
Print Assumptions C54_no_fatal.
Theorem C54_unread : forall files path, (forall content, files path <> Text content false) -> parse_gemfile_lock files path = Some (fails_with (FRead path)).
Proof. exact gem_unread. Qed.
Print Assumptions C54_unread.
(** an ordinary spec: a name without blanks, a version, maybe a platform *)
Theorem C54_spec : forall n inner b v, has_char " " n = false -> n <> "" -> bang b -> before_dash inner v -> spec_line ("    " +s+ n +s+ " (" +s+ inner +s+ ")" +s+ b) n v.
Proof.
  intros n inner b v N NE B D. exists (n +s+ " (" +s+ inner +s+ ")" +s+ b). split; [reflexivity|]. split; [|now apply gem_spec_plain].
  intros r E. destruct n as [|c n]; [congruence|]. injection E as -> _. discriminate.
Qed.
Print Assumptions C54_spec.

Definition gx_git : list string := ["  remote: https://x/foo.git"; "  revision: abc123"; "  specs:"; "    foo (1.0.0)"; "      bar (>= 2)"; ""].
Definition gx_gem : list string := ["  remote: https://rubygems.org/"; "  specs:"; "    nokogiri (1.14.2-x86_64-linux)"; "    bar (2.1)"; ""].
Definition gx_deps : list string := ["  foo!"; ""].
Definition gx_file : string := "GIT
  remote: https://x/foo.git
  revision: abc123
  specs:
    foo (1.0.0)
      bar (>= 2)

GEM
  remote: https://rubygems.org/
  specs:
    nokogiri (1.14.2-x86_64-linux)
    bar (2.1)

DEPENDENCIES
  foo!
".
Definition gx_lines : list string := (("GIT" :: gx_git) ++ ("GEM" :: gx_gem) ++ ("DEPENDENCIES" :: gx_deps))%list.
Ltac gx_raw := repeat match goal with
  | |- raw_lines _ [?x] => apply rl_last; reflexivity
  | |- raw_lines _ (?x :: ?ls) => refine (rl_lf x _ ls _ _ _); [reflexivity|intros y E; apply (f_equal str_rev) in E; rewrite str_rev_append in E; vm_compute in E; discriminate|]
  end.
Ltac gx_closed := repeat constructor; intros O; apply opens_iff in O; vm_compute in O; destruct O; discriminate.
Example C54_case : raw_lines gx_file gx_lines /\ gem_sections gx_lines [("GIT", gx_git); ("GEM", gx_gem); ("DEPENDENCIES", gx_deps)]
  /\ parse_gemfile_lock (lx_file gx_file) "/l"
     = Some (Ok (inr [mkPkg "foo" "1.0.0" "abc123" "RubyGems" "RubyGems"; mkPkg "nokogiri" "1.14.2" "" "RubyGems" "RubyGems"; mkPkg "bar" "2.1" "" "RubyGems" "RubyGems"])).
Proof.
  split; [|split; [|vm_compute; reflexivity]].
  - unfold gx_lines, gx_git, gx_gem, gx_deps, gx_file. cbn [app]. gx_raw.
  - exists []. split; [constructor|]. split; [|reflexivity]. repeat apply Forall_cons; try apply Forall_nil; (split; [apply opens_iff; vm_compute; auto|gx_closed]).
Qed.
Example C54_spec_case : spec_line "    nokogiri (1.14.2-x86_64-linux)" "nokogiri" "1.14.2" /\ spec_line "    foo (1.0.0)!" "foo" "1.0.0".
Proof.
  split; [apply (C54_spec "nokogiri" "1.14.2-x86_64-linux" "" "1.14.2")|apply (C54_spec "foo" "1.0.0" "!" "1.0.0")]; try reflexivity; try discriminate; try (left; reflexivity); try (right; reflexivity);
    (split; [reflexivity|]); [right; exists "x86_64-linux"|left]; reflexivity.
Qed.
(** A package of a section does not always carry the section's commit: a line
    with one of the words in it, such as a package's name, starts over. *)
Definition gem_commit_kept : Prop := forall files path rev name rest ps,
  files path = Text ("GIT
  revision: " +s+ rev +s+ "
  specs:
    " +s+ name +s+ " (1.0.0)
" +s+ rest) false -> has_char " " name = false -> has_char "010" name = false -> has_char "010" rev = false -> has_char "013" rev = false -> name <> "" ->
  parse_gemfile_lock files path = Some (Ok (inr ps)) -> exists p, In p ps /\ p_name p = name /\ p_commit p = rev.
Theorem C54_words_refuted : ~ gem_commit_kept.
Proof.
  intros H. destruct (H (lx_file "GIT
  revision: abc
  specs:
    PATHFINDER (1.0.0)
") "/l" "abc" "PATHFINDER" "" [mkPkg "PATHFINDER" "1.0.0" "" "RubyGems" "RubyGems"]) as (p & I & N & C); try discriminate; try reflexivity.
  destruct I as [<-|[]]. discriminate.
Qed.
Print Assumptions C54_words_refuted.
