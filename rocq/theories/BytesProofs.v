(** Proofs about runs from bytes (C85). *)
From Verif Require Import GoStr GoStrFacts GoSort GoMap Types Json JsonSpec Osv OsvSpec MemDB MemDBSpec Path Scan LockIO Commit CommitSpec CommitProofs LockSpec YarnSpec YarnProofs ListLocks ListLocksProofs Lockfile LockfileSpec LockfileProofs Csv Parsers Api ZipDB ZipSpec DirDB DirDBSpec DbConfig Configer OsvJson OsvJsonSpec OsvJsonProofs Report ReportSpec Main MainSpec EndSpec EndProofs ParserProofs FormatSpec FormatProofs BytesSpec.
From Verif Require JsonGrammar.
Local Open Scope string_scope.

Lemma usables_in E O fs mode ps rs l c : Forall2 (reads E O fs mode) ps rs -> In (l, c) (usables rs) -> exists p, In p ps /\ parse_lockfile E O p = Ok (l, None).
Proof.
  induction 1 as [|p r ps rs R F IH]; cbn; [intros []|]. intros H. apply in_app_or in H as [H|H].
  - destruct R as [|c0 l0 e|c0 l0 C P]; cbn in H; try contradiction. destruct H as [H|[]]. injection H as -> ->. eauto.
  - destruct (IH H) as (q & I & P). eauto.
Qed.
Lemma map_get_parsers a f : map_get a parsers = Some f -> a <> "csv-row" /\ a <> "csv-file".
Proof. intros H. split; intros ->; vm_compute in H; discriminate H. Qed.
Lemma uses_parsed E O fs l c d f : SorterOk (e_sort E) -> uses E O fs l c d -> map_get (lf_as l) parsers = Some f ->
  exists ps, e_impl E f (lf_path l) = Ok (ps, None) /\ Permutation ps (lf_pkgs l).
Proof.
  intros SO (paths & e & mode & rs & _ & _ & R & I & _) G. destruct (usables_in _ _ _ _ _ _ _ _ R I) as (p & _ & P). clear R I.
  destruct (map_get_parsers _ _ G) as [N1 N2]. unfold parse_lockfile in P. destruct (split_parse_as p) as [a path].
  destruct (seqb_spec a parse_as_csv_row) as [->|N].
  { unfold from_csv_rows in P. destruct (from_csv _ _) as [l0 e0]. injection P as <- _. now destruct N1. }
  destruct (seqb_spec a parse_as_csv_file) as [->|N'].
  { unfold from_csv_file in P. destruct (e_csv E path); [|discriminate P]. destruct (from_csv _ _) as [l0 e0]. injection P as <- _. now destruct N2. }
  destruct (Lockfile.parse _ _ path a) as [[l0 e0]|] eqn:Q; [|discriminate P]. cbn [rbind] in P. injection P as -> H. destruct e0; [discriminate H|].
  destruct (parse_sorted _ _ _ _ _ _ SO Q) as [(_ & _ & X)|(g & ps & err & Fp & Im & [Pe _] & Er & <- & As)]; [discriminate X|].
  rewrite As in G. unfold find_parser in *. cbn [fst snd] in *. rewrite Fp in G. injection G as ->. destruct err; [discriminate Er|]. eauto.
Qed.
Lemma impl_ok D it files depth text f path ps : impl D it files depth text f path = Ok (ps, None) -> fst (run_parser D it files depth f path) = Some (Ok (inr ps)).
Proof. unfold impl, parsed. destruct (fst _) as [[[e|q]|]|]; intros H; try discriminate H. now injection H as ->. Qed.

Lemma lists_known D fls path n p : format_lists D fls path n p -> exists f, map_get n parsers = Some f.
Proof. intros L. destruct L; try (eexists; reflexivity). repeat destruct H as [<-|H]; try destruct H; eexists; reflexivity. Qed.
Lemma clear_known D fls path n : format_clear D fls path n -> exists f, map_get n parsers = Some f.
Proof. intros L. destruct L; try (eexists; reflexivity). cbn [always_clear In] in H. repeat destruct H as [<-|H]; try destruct H; eexists; reflexivity. Qed.
Lemma eco_colon f : has_char ":" (fn_eco f) = false. Proof. destruct f; reflexivity. Qed.
Lemma listed_pkg E O D fls rfc fs l c d p : SorterOk (e_sort E) -> IterOk (e_iter E) -> reads_bytes E D fls rfc -> uses E O fs l c d -> bytes_list D fls l p ->
  In p (lf_pkgs l) /\ has_char ":" (p_eco p) = false.
Proof.
  intros SO IO ((depth & text & Im) & _) U B. destruct (lists_known _ _ _ _ _ B) as (f & G). destruct (uses_parsed E O fs l c d f SO U G) as (ps & Ip & Pe).
  rewrite Im in Ip. apply impl_ok in Ip. pose proof (lists_parsed D (e_iter E) IO fls depth _ f _ ps p G Ip B) as I. split; [exact (Permutation_in _ Pe I)|].
  destruct (parser_eco D (e_iter E) IO fls depth f _ _ ps p Ip eq_refl I) as [-> _]. apply eco_colon.
Qed.
Lemma clear_pkg E O D fls rfc fs l c d p : SorterOk (e_sort E) -> IterOk (e_iter E) -> reads_bytes E D fls rfc -> uses E O fs l c d -> bytes_clear D fls l -> In p (lf_pkgs l) -> bytes_list D fls l p.
Proof.
  intros SO IO ((depth & text & Im) & _) U B I. destruct (clear_known _ _ _ _ B) as (f & G). destruct (uses_parsed E O fs l c d f SO U G) as (ps & Ip & Pe).
  rewrite Im in Ip. apply impl_ok in Ip. apply (only_parsed D (e_iter E) IO fls depth _ f _ ps p G Ip B). exact (Permutation_in _ (Permutation_sym Pe) I).
Qed.

(** ** databases *)
Lemma text_dec rfc content o : advisory_text rfc content o -> dec_osv rfc content = (o, false).
Proof. intros (j & T & D). apply JsonGrammar.parse_iff in T. now apply dec_doc with j. Qed.
Lemma dec_text rfc content o : dec_osv rfc content = (o, false) -> read_from rfc content o.
Proof. intros H. destruct (dec_only rfc content o H) as (j & P & D). exists j. split; [now apply JsonGrammar.parse_iff|exact D]. Qed.
Lemma held E O D fls rfc cache d o : reads_bytes E D fls rfc -> bytes_hold E O cache rfc d o -> must_hold E O cache d o.
Proof.
  intros [_ De] H. destruct H as [u q content T U [A S] X|T H].
  - apply st_dir; [exact T|]. exists u, q. split; [exact U|]. exists content. rewrite De. split; [exact A|]. split; [exact S|now apply text_dec].
  - apply st_zip; [exact T|]. intros entries A. destruct (H entries A) as (name & content & rest & stem & I & -> & S & X). exists (dc_wd d +s+ rest, Some content). split; [exact I|].
    split; [now exists rest|]. split; [now exists stem|]. exists content. rewrite De. split; [reflexivity|now apply text_dec].
Qed.
Lemma gave E O D fls rfc cache d o : reads_bytes E D fls rfc -> may_hold E O cache d o -> bytes_gave E O cache rfc d o.
Proof.
  intros [_ De] H. destruct H as [entries T A ([name ct] & I & (rest & R) & (stem & S) & content & Ec & X)|T (u & q & U & content & A & S & X)].
  - cbn [fst snd] in *. subst ct. rewrite De in X. apply (bg_zip _ _ _ _ _ _ entries name content rest stem); auto. now apply dec_text.
  - rewrite De in X. apply (bg_dir _ _ _ _ _ _ u q content); auto. now apply dec_text.
Qed.

(** ** runs *)
Lemma from_block E O D fls rfc fs l c d p : SorterOk (e_sort E) -> reads_bytes E D fls rfc -> uses E O fs l c d -> lf_as l = "yarn.lock" -> In p (lf_pkgs l) ->
  exists ls bs b, file_lines fls (lf_path l) ls /\ yarn_blocks ls bs /\ In b bs /\ block_makes (Parsers.dc_url D) b (Some p).
Proof.
  intros SO ((depth & text & Im) & _) U As I. destruct (uses_parsed E O fs l c d ParseYarnLock SO U) as (ps & Ip & Pe); [now rewrite As|].
  rewrite Im in Ip. apply impl_ok in Ip. cbn [run_parser fst] in Ip.
  assert (FL : exists ls, file_lines fls (lf_path l) ls).
  { unfold YarnLock.parse_yarn_lock in Ip. unfold file_lines. destruct (fls (lf_path l)) as [|content fails]; [discriminate Ip|]. destruct (scan content) as [ls [|]] eqn:Sc; cbn [orb] in Ip; [discriminate Ip|].
    destruct fails; [discriminate Ip|]. eauto. }
  destruct FL as [ls FL]. destruct (blocks_exist ls) as (bs & YB & _). destruct (yarn_lock fls (Parsers.dc_url D) (lf_path l) ls bs FL YB) as (ps' & Q & M).
  rewrite Q in Ip. cbn [fst] in Ip. injection Ip as ->. apply (Permutation_in _ (Permutation_sym Pe)) in I. destruct (makes_from _ _ _ _ M I) as (b & J & K). eauto 8.
Qed.
Theorem bytes_accounted E O D fls rfc : SorterOk (e_sort E) -> IterOk (e_iter E) -> EntriesOk E -> reads_bytes E D fls rfc ->
  forall fs cache code s', checking O -> distinct_names E O fs -> run E O (start fs cache) = (Ok code, s') -> code = 0%Z \/ code = 1%Z ->
  forall l c d p o, uses E O fs l c d -> bytes_list D fls l p -> bytes_hold E O cache rfc d o -> o_withdrawn o = None ->
  checkable (e_sem E) [o] p -> osv_affects (e_sem E) o p -> accounts (s_trace s') l p (ignores_of O c) o.
Proof.
  intros SO IO EO B fs cache code s' C N R Cd l c d p o U L H W Ch Af. pose proof (listed_pkg E O D fls rfc fs l c d p SO IO B U L) as LP.
  apply (run_accounts E O SO IO EO fs cache code s' C N R Cd l c d p o U); auto; [exact (proj1 LP)|exact (proj2 LP)|now apply (held E O D fls rfc)].
Qed.
Theorem bytes_clean E O D fls rfc : SorterOk (e_sort E) -> IterOk (e_iter E) -> EntriesOk E -> reads_bytes E D fls rfc ->
  forall fs cache s', checking O -> distinct_names E O fs -> run E O (start fs cache) = (Ok 0%Z, s') ->
  forall l c d p o, uses E O fs l c d -> bytes_list D fls l p -> bytes_hold E O cache rfc d o -> o_withdrawn o = None ->
  checkable (e_sem E) [o] p -> osv_affects (e_sem E) o p ->
  exists r g, alike o r /\ (g = r \/ related g r) /\ In (o_id g) (ignores_of O c).
Proof.
  intros SO IO EO B fs cache s' C N R l c d p o U L H W Ch Af. pose proof (listed_pkg E O D fls rfc fs l c d p SO IO B U L) as LP.
  apply (clean_ignored E O SO IO EO fs cache s' C N R l c d p o U); auto; [exact (proj1 LP)|exact (proj2 LP)|now apply (held E O D fls rfc)].
Qed.
Theorem bytes_every E O D fls rfc : SorterOk (e_sort E) -> IterOk (e_iter E) -> EntriesOk E -> reads_bytes E D fls rfc ->
  forall fs cache code s', checking O -> distinct_names E O fs -> run E O (start fs cache) = (Ok code, s') ->
  forall ck row v, In ck (checks (s_trace s')) -> In row (rp_pkgs (ck_report ck)) -> In v (pv_vulns row ++ pv_ignored row) ->
  (bytes_clear D fls (rp_lock (ck_report ck)) -> bytes_list D fls (rp_lock (ck_report ck)) (pv_pkg row))
  /\ (lf_as (rp_lock (ck_report ck)) = "yarn.lock" ->
     exists ls bs b, file_lines fls (lf_path (rp_lock (ck_report ck))) ls /\ yarn_blocks ls bs /\ In b bs /\ block_makes (Parsers.dc_url D) b (Some (pv_pkg row)))
  /\ exists c d, uses E O fs (rp_lock (ck_report ck)) c d
       /\ (api_says E d (rp_lock (ck_report ck)) (pv_pkg row) v
           \/ exists o, osv_same o v /\ bytes_gave E O cache rfc d o /\ o_withdrawn o = None /\ (checkable (e_sem E) [o] (pv_pkg row) -> osv_affects (e_sem E) o (pv_pkg row))).
Proof.
  intros SO IO EO B fs cache code s' C N R ck row v I1 I2 I3. destruct (run_every E O SO IO EO fs cache code s' C N R ck row v I1 I2 I3) as (c & d & U & P & _ & _ & G). split.
  { intros As. now apply (clear_pkg E O D fls rfc fs _ c d). }
  split.
  - intros As. now apply (from_block E O D fls rfc fs _ c d).
  - exists c, d. split; [exact U|]. destruct G as [G|(o & S & M & W & A)]; [now left|right]. exists o. split; [exact S|]. split; [now apply (gave E O D fls rfc)|]. auto.
Qed.
(** the parsers, through [Parse] *)
Theorem parse_bytes D it fls depth S text path parse_as lf : IterOk it -> SorterOk S ->
  Lockfile.parse S (impl D it fls depth text) path parse_as = Ok (lf, None) ->
  (forall p, bytes_list D fls lf p -> In p (lf_pkgs lf)) /\ (bytes_clear D fls lf -> forall p, In p (lf_pkgs lf) -> bytes_list D fls lf p).
Proof.
  intros IO SO Q. destruct (parse_sorted _ _ _ _ _ _ SO Q) as [(_ & _ & X)|(g & ps & err & Fp & Im & [Pe _] & Er & Pa & As)]; [discriminate X|].
  destruct err; [discriminate Er|]. apply impl_ok in Im. assert (G : map_get (lf_as lf) parsers = Some g) by (rewrite As; exact Fp). unfold bytes_list, bytes_clear. rewrite Pa. split.
  - intros p L. apply (Permutation_in _ Pe). exact (lists_parsed D it IO fls depth _ g _ ps p G Im L).
  - intros C p I. apply (only_parsed D it IO fls depth _ g _ ps p G Im C). exact (Permutation_in _ (Permutation_sym Pe) I).
Qed.
