From Verif Require Import GoStr GoStrFacts Regex RegexFacts RegexIn Commit CommitSpec.
From Coq Require Import Lia.
Lemma str_rev_case s : s = "" \/ exists q c, s = q +s+ String c "".
Proof. induction s as [|c s [->|(q & d & ->)]]; [now left|right; exists "", c; reflexivity|right; exists (String c q), d; reflexivity]. Qed.

Lemma in_tail b v cs x : In x (ms (Sq (Cap 1 Words) Eol) (mkst b v cs)) <-> word v /\ x = mkst false "" ((1, v) :: cs).
Proof.
  rewrite in_sq. unfold Words, Word. split.
  - intros (y & Y & E). apply in_cap_plus in Y as (w & t & N & F & -> & ->). apply in_eol in E as [E ->]. cbn in E. subst t. rewrite sapp_nil_r. split; [split; auto|reflexivity].
  - intros [[N F] ->]. exists (mkst false "" ((1, v) :: cs)). split; [|apply in_eol; auto]. apply in_cap_plus. exists v, "". rewrite sapp_nil_r. auto.
Qed.
Lemma in_any b v cs x : In x (ms Any (mkst b v cs)) <-> exists w t, line_text w /\ v = w +s+ t /\ x = mkst false t cs.
Proof.
  unfold Any, Dot. rewrite in_plus. assert (E : forall w, str_forall is_dot w = str_forall (fun c => negb (Ascii.eqb c "010")) w) by reflexivity.
  split; intros (w & t & H); exists w, t; unfold line_text in *; rewrite E in *; tauto.
Qed.
Lemma in_pre u v x : In x (ms re_pre (mkst (starts u) v [])) <->
  (u = "" /\ x = mkst true v []) \/ exists w t, line_text w /\ v = w +s+ "@" +s+ t /\ x = mkst false t [].
Proof.
  unfold re_pre. rewrite in_alt, in_bol, in_sq. cbn [st_bot]. split.
  - intros [[S ->]|(y & Y & X)]; [left; destruct u; [auto|discriminate]|]. apply in_any in Y as (w & t & L & -> & ->). apply in_chr in X as (r & -> & ->). right. exists w, r. auto.
  - intros [[-> ->]|(w & t & L & -> & ->)]; [left; auto|right]. exists (mkst false ("@" +s+ t) []). rewrite in_any, in_chr. split; [exists w, ("@" +s+ t); auto|exists t; auto].
Qed.
Lemma pre_split u v x : In x (ms re_pre (mkst (starts u) v [])) -> exists p t, pre_at p /\ u +s+ v = p +s+ t /\ x = mkst (starts p) t [].
Proof.
  intros H. apply in_pre in H as [[-> ->]|(w & t & [N L] & -> & ->)].
  - exists "", v. split; [now left|]. auto.
  - destruct (str_rev_case w) as [->|(q & c & ->)]; [congruence|]. exists (u +s+ q +s+ String c "@"), t. split; [|split].
    + right. exists (u +s+ q), c. split; [|now rewrite sapp_assoc]. rewrite str_forall_app in L. apply andb_true_iff in L as [_ L]. cbn in L. intros ->. discriminate.
    + rewrite !sapp_assoc. cbn. reflexivity.
    + destruct u; [|reflexivity]. destruct q; reflexivity.
Qed.
Lemma pre_join p t : pre_at p -> exists u v, p +s+ t = u +s+ v /\ In (mkst (starts p) t []) (ms re_pre (mkst (starts u) v [])).
Proof.
  intros [->|(q & c & C & ->)].
  - exists "", t. split; [reflexivity|]. apply in_pre. auto.
  - exists q, (String c ("@" +s+ t)). split; [rewrite sapp_assoc; reflexivity|]. apply in_pre. right. exists (String c ""), t. split; [|split; [reflexivity|]].
    + split; [discriminate|]. cbn. destruct (Ascii.eqb_spec c "010"); [contradiction|reflexivity].
    + destruct q; reflexivity.
Qed.
Lemma in_scheme b v cs x : In x (ms re_scheme (mkst b v cs)) <-> exists sch t, In sch ["git"; "git+ssh"; "git+https"; "ssh"] /\ v = sch +s+ t /\ x = mkst false t cs.
Proof.
  unfold re_scheme. cbn [Alts]. rewrite in_alt, in_sq. setoid_rewrite in_opt. split.
  - intros [(y & Y & [X|E])|X].
    + apply in_lit in Y as (t & -> & ->). apply in_sq in X as (z & Z & X). apply in_chr in Z as (t' & -> & ->). apply in_alt in X as [X|X]; apply in_lit in X as (r & -> & ->).
      * exists "git+ssh", r. cbn. auto 6.
      * exists "git+https", r. cbn. auto 6.
    + subst y. apply in_lit in Y as (t & -> & ->). exists "git", t. cbn. auto.
    + apply in_lit in X as (t & -> & ->). exists "ssh", t. cbn. auto 6.
  - intros (sch & t & S & -> & ->). destruct S as [<-|[<-|[<-|[<-|[]]]]].
    + left. exists (mkst false t cs). split; [|now right]. apply in_lit; eexists; split; reflexivity.
    + left. exists (mkst false ("+ssh" +s+ t) cs). split; [apply in_lit; eexists; split; reflexivity|left]. apply in_sq. exists (mkst false ("ssh" +s+ t) cs). split; [apply in_chr; eexists; split; reflexivity|]. apply in_alt. left. apply in_lit; eexists; split; reflexivity.
    + left. exists (mkst false ("+https" +s+ t) cs). split; [apply in_lit; eexists; split; reflexivity|left]. apply in_sq. exists (mkst false ("https" +s+ t) cs). split; [apply in_chr; eexists; split; reflexivity|]. apply in_alt. right. apply in_lit; eexists; split; reflexivity.
    + right. apply in_lit; eexists; split; reflexivity.
Qed.
Definition sound (r : re) : Prop := forall u v x, In x (ms r (mkst (starts u) v [])) -> exists c, commit_of (u +s+ v) c /\ cap_of 1 (st_caps x) = c.
Ltac tail_of H := apply in_tail in H as [H ->].
Ltac group_lines := repeat match goal with |- context [Seqs (?a :: ?b :: ?l)] => change (Seqs (a :: b :: l)) with (Sq a (Seqs (b :: l))) end.
Lemma seqs2 a b l : Seqs (a :: b :: l) = Sq a (Seqs (b :: l)). Proof. reflexivity. Qed.
Lemma seqs1 a : Seqs [a] = a. Proof. reflexivity. Qed.
Ltac step H y := rewrite seqs2, in_sq in H; destruct H as (y & ?Y & H).
Lemma sound_git : sound (Seqs [re_pre; re_scheme; Lit "://"; Any; Chr "#"; Cap 1 Words; Eol]).
Proof.
  intros u v x H. step H y. apply pre_split in Y as (p & t & P & -> & ->). step H y. apply in_scheme in Y as (sch & t1 & S & -> & ->).
  step H y. apply in_lit in Y as (t2 & -> & ->). step H y. apply in_any in Y as (w & t3 & L & -> & ->). step H y. apply in_chr in Y as (c & -> & ->).
  rewrite seqs2, seqs1 in H. tail_of H. exists c. split; [|reflexivity]. now apply (co_git p sch w c).
Qed.
Lemma sound_https : sound (Seqs [re_pre; Lit "https://"; Any; Lit ".git#"; Cap 1 Words; Eol]).
Proof.
  intros u v x H. step H y. apply pre_split in Y as (p & t & P & -> & ->).
  step H y. apply in_lit in Y as (t2 & -> & ->). step H y. apply in_any in Y as (w & t3 & L & -> & ->). step H y. apply in_lit in Y as (c & -> & ->).
  rewrite seqs2, seqs1 in H. tail_of H. exists c. split; [|reflexivity]. now apply (co_https p w c).
Qed.
Lemma sound_codeload : sound (Seqs [Lit "https://codeload.github.com"; Sq (Chr "/") (Plus true (Cls repo_char)); Sq (Chr "/") (Plus true (Cls repo_char)); Lit "/tar.gz/"; Cap 1 Words; Eol]).
Proof.
  intros u v x H. step H y. apply in_lit in Y as (t & -> & ->). step H y. apply in_sq in Y as (z & Z & Y). apply in_chr in Z as (t1 & -> & ->).
  apply in_plus in Y as (o & t2 & O1 & O2 & -> & ->). step H y. apply in_sq in Y as (z & Z & Y). apply in_chr in Z as (t3 & -> & ->).
  apply in_plus in Y as (r & t4 & R1 & R2 & -> & ->). step H y. apply in_lit in Y as (c & -> & ->). rewrite seqs2, seqs1 in H. tail_of H. exists c. split; [|reflexivity].
  apply (co_codeload u o r c); [split; auto|split; auto|exact H].
Qed.
Lemma sound_commit : sound (Seqs [Any; Lit "#commit"; Cls (fun c => Ascii.eqb c ":" || Ascii.eqb c "="); Cap 1 Words; Eol]).
Proof.
  intros u v x H. step H y. apply in_any in Y as (w & t & [L1 L2] & -> & ->). step H y. apply in_lit in Y as (t1 & -> & ->). step H y. apply in_cls in Y as (e & c & -> & E & ->).
  rewrite seqs2, seqs1 in H. tail_of H. exists c. split; [|reflexivity]. destruct (str_rev_case w) as [->|(q & d & ->)]; [congruence|].
  replace (u +s+ (q +s+ String d "") +s+ "#commit" +s+ String e c) with ((u +s+ q) +s+ String d "#commit" +s+ String e "" +s+ c) by (rewrite !sapp_assoc; reflexivity).
  apply co_commit; [| |exact H].
  - rewrite str_forall_app in L2. apply andb_true_iff in L2 as [_ L2]. cbn in L2. intros ->. discriminate.
  - apply orb_true_iff in E as [E|E]; apply Ascii.eqb_eq in E as ->; cbn; auto.
Qed.
Lemma in_hosts b v cs x : In x (ms (Alts [Lit "github"; Lit "gitlab"; Lit "bitbucket"]) (mkst b v cs)) <-> exists h t, In h ["github"; "gitlab"; "bitbucket"] /\ v = h +s+ t /\ x = mkst false t cs.
Proof.
  cbn [Alts]. rewrite !in_alt, !in_lit. split.
  - intros [(t & -> & ->)|[(t & -> & ->)|(t & -> & ->)]]; eexists _, t; (split; [|split; reflexivity]); cbn; auto.
  - intros (h & t & H & -> & ->). destruct H as [<-|[<-|[<-|[]]]]; [left|right; left|right; right]; eauto.
Qed.
Lemma sound_host : sound (Seqs [Bol; Alts [Lit "github"; Lit "gitlab"; Lit "bitbucket"]; Chr ":"; Any; Chr "#"; Cap 1 Words; Eol]).
Proof.
  intros u v x H. step H y. apply in_bol in Y as [B ->]. cbn [st_bot] in B. destruct u; [|discriminate]. step H y. apply in_hosts in Y as (h & t & I & -> & ->).
  step H y. apply in_chr in Y as (t1 & -> & ->). step H y. apply in_any in Y as (w & t3 & L & -> & ->). step H y. apply in_chr in Y as (c & -> & ->).
  rewrite seqs2, seqs1 in H. tail_of H. exists c. split; [|reflexivity]. now apply (co_host h w c).
Qed.
Lemma all_sound : Forall sound matchers.
Proof. unfold matchers. repeat constructor; [apply sound_git|apply sound_https|apply sound_codeload|apply sound_commit|apply sound_host]. Qed.
Ltac go z := rewrite seqs2, in_sq; exists z; split.
Lemma complete s c : commit_of s c -> exists r u v x, In r matchers /\ s = u +s+ v /\ In x (ms r (mkst (starts u) v [])).
Proof.
  intros [p sch x d P S L W|p x d P L W|p o r d O R W|p e f d E F W|h x d H L W].
  - destruct (pre_join p (sch +s+ "://" +s+ x +s+ "#" +s+ d) P) as (u & v & E & I). do 4 eexists. split; [left; reflexivity|]. split; [exact E|].
    go (mkst (starts p) (sch +s+ "://" +s+ x +s+ "#" +s+ d) []); [exact I|].
    go (mkst false ("://" +s+ x +s+ "#" +s+ d) []); [apply in_scheme; eauto|]. go (mkst false (x +s+ "#" +s+ d) []); [apply in_lit; eexists; split; reflexivity|].
    go (mkst false ("#" +s+ d) []); [apply in_any; eauto|]. go (mkst false d []); [apply in_chr; eexists; split; reflexivity|]. rewrite seqs2, seqs1. apply in_tail. eauto.
  - destruct (pre_join p ("https://" +s+ x +s+ ".git#" +s+ d) P) as (u & v & E & I). do 4 eexists. split; [right; left; reflexivity|]. split; [exact E|].
    go (mkst (starts p) ("https://" +s+ x +s+ ".git#" +s+ d) []); [exact I|]. go (mkst false (x +s+ ".git#" +s+ d) []); [apply in_lit; eexists; split; reflexivity|].
    go (mkst false (".git#" +s+ d) []); [apply in_any; eauto|]. go (mkst false d []); [apply in_lit; eexists; split; reflexivity|]. rewrite seqs2, seqs1. apply in_tail. eauto.
  - do 4 eexists. split; [right; right; left; reflexivity|]. split; [reflexivity|].
    go (mkst false ("/" +s+ o +s+ "/" +s+ r +s+ "/tar.gz/" +s+ d) []); [apply in_lit; eexists; split; reflexivity|].
    go (mkst false ("/" +s+ r +s+ "/tar.gz/" +s+ d) []); [apply in_sq; exists (mkst false (o +s+ "/" +s+ r +s+ "/tar.gz/" +s+ d) []); split; [apply in_chr; eexists; split; reflexivity|apply in_plus; destruct O; eauto 7]|].
    go (mkst false ("/tar.gz/" +s+ d) []); [apply in_sq; exists (mkst false (r +s+ "/tar.gz/" +s+ d) []); split; [apply in_chr; eexists; split; reflexivity|apply in_plus; destruct R; eauto 7]|].
    go (mkst false d []); [apply in_lit; eexists; split; reflexivity|]. rewrite seqs2, seqs1. apply in_tail. eauto.
  - do 4 eexists. split; [right; right; right; left; reflexivity|]. split; [reflexivity|]. change (String e "#commit" +s+ f +s+ d) with (String e "" +s+ "#commit" +s+ f +s+ d).
    go (mkst false ("#commit" +s+ f +s+ d) []).
    { apply in_any. exists (String e ""), ("#commit" +s+ f +s+ d). split; [|auto]. split; [discriminate|]. cbn. destruct (Ascii.eqb_spec e "010"); [contradiction|reflexivity]. }
    go (mkst false (f +s+ d) []); [apply in_lit; eexists; split; reflexivity|]. destruct F as [<-|[<-|[]]]; (go (mkst false d []); [apply in_cls; do 2 eexists; repeat split; reflexivity|]; rewrite seqs2, seqs1; apply in_tail; eauto).
  - exists (Seqs [Bol; Alts [Lit "github"; Lit "gitlab"; Lit "bitbucket"]; Chr ":"; Any; Chr "#"; Cap 1 Words; Eol]), "". do 2 eexists. split; [cbn; auto 7|]. split; [reflexivity|].
    go (mkst true (h +s+ ":" +s+ x +s+ "#" +s+ d) []); [apply in_bol; auto|]. go (mkst false (":" +s+ x +s+ "#" +s+ d) []); [apply in_hosts; eauto|].
    go (mkst false (x +s+ "#" +s+ d) []); [apply in_chr; eexists; split; reflexivity|]. go (mkst false ("#" +s+ d) []); [apply in_any; eauto|]. go (mkst false d []); [apply in_chr; eexists; split; reflexivity|].
    rewrite seqs2, seqs1. apply in_tail. eauto.
Qed.
(** the commit is the word at the end *)
Lemma commit_end s c : commit_of s c -> word c /\ exists t d, s = t +s+ String d c /\ is_word d = false.
Proof.
  intros [p sch x d P S L W|p x d P L W|p o r d O R W|p e f d E F W|h x d H L W]; (split; [exact W|]).
  - exists (p +s+ sch +s+ "://" +s+ x), "#"%char. rewrite !sapp_assoc. auto.
  - exists (p +s+ "https://" +s+ x +s+ ".git"), "#"%char. rewrite !sapp_assoc. auto.
  - exists (p +s+ "https://codeload.github.com/" +s+ o +s+ "/" +s+ r +s+ "/tar.gz"), "/"%char. rewrite !sapp_assoc. auto.
  - destruct F as [<-|[<-|[]]]; eexists (p +s+ String e "#commit"), _; (split; [rewrite sapp_assoc; reflexivity|reflexivity]).
  - exists (h +s+ ":" +s+ x), "#"%char. rewrite !sapp_assoc. auto.
Qed.
Lemma end_fun t d c t' d' c' : str_forall is_word c = true -> str_forall is_word c' = true -> is_word d = false -> is_word d' = false ->
  t +s+ String d c = t' +s+ String d' c' -> c = c'.
Proof.
  intros W W' D D' E. apply (f_equal str_rev) in E. rewrite !str_rev_append, !str_rev_cons, !sapp_assoc in E.
  assert (S : forall q e z, str_forall is_word q = true -> is_word e = false -> span is_word (str_rev q +s+ String e "" +s+ z) = (str_rev q, String e z)).
  { intros q e z Q N. apply span_unique; [now rewrite str_forall_rev|]. intros a b A. cbn in A. injection A as <- _. exact N. }
  pose proof (S c d (str_rev t) W D) as S1. rewrite E, (S c' d' (str_rev t') W' D') in S1. injection S1 as R _ _.
  rewrite <- (str_rev_involutive c), <- R. apply str_rev_involutive.
Qed.
Lemma commit_fun s c c' : commit_of s c -> commit_of s c' -> c = c'.
Proof.
  intros H H'. apply commit_end in H as ([_ W] & t & d & -> & D). apply commit_end in H' as ([_ W'] & t' & d' & E & D'). exact (end_fun _ _ _ _ _ _ W W' D D' E).
Qed.
Lemma first_commit_some l s : Forall sound l -> (exists r u v x, In r l /\ s = u +s+ v /\ In x (ms r (mkst (starts u) v []))) -> exists c, first_commit l s = Some c /\ commit_of s c.
Proof.
  intros S. induction S as [|r l R S IH]; intros (q & u & v & x & I & E & X); [destruct I|]. cbn [first_commit]. destruct (find r s) as [m|] eqn:F.
  - eexists. split; [reflexivity|]. apply find_some in F as (u' & v' & x' & -> & X' & C & _). unfold group. rewrite C. destruct (R _ _ _ X') as (c & H & ->). exact H.
  - apply IH. destruct I as [<-|I]; [|eauto 8]. exfalso. exact (proj1 (find_none _ _) F _ _ _ E X).
Qed.
Lemma first_commit_of l s c : Forall sound l -> first_commit l s = Some c -> commit_of s c.
Proof.
  intros S. induction S as [|r l R S IH]; cbn [first_commit]; [discriminate|]. destruct (find r s) as [m|] eqn:F; [|exact IH]. intros E. injection E as <-.
  apply find_some in F as (u' & v' & x' & -> & X' & C & _). unfold group. rewrite C. destruct (R _ _ _ X') as (c & H & ->). exact H.
Qed.
Lemma extract_git url s c : commit_of s c -> try_extract_commit url s = c.
Proof.
  intros H. unfold try_extract_commit. destruct (first_commit_some matchers s all_sound (complete _ _ H)) as (c' & -> & H'). eapply commit_fun; eauto.
Qed.
Lemma extract_url url s : (forall c, ~ commit_of s c) -> url_commit (url s) (try_extract_commit url s).
Proof.
  intros H. unfold try_extract_commit. destruct (first_commit matchers s) as [c|] eqn:F; [destruct (H c); eapply first_commit_of; [apply all_sound|exact F]|].
  destruct (url s) as [u|]; [|constructor]. destruct (mem (u_host u) _) eqn:M.
  - apply mem_iff in M. destruct (u_ref u) as [ref|] eqn:R.
    + destruct (seqb_spec (u_query u) "") as [Q|Q]; cbn [negb]; [apply uc_fragment; auto|apply uc_ref; auto].
    + apply uc_fragment; auto.
  - apply mem_false in M. now apply uc_other.
Qed.
Lemma url_commit_fun u c c' : url_commit u c -> url_commit u c' -> c = c'.
Proof. intros H H'. destruct H; inversion H'; subst; try congruence; try tauto; intuition congruence. Qed.
(** ** urls of a registry *)
Lemma app_split x r e : forall a b, has_char e x = false -> x +s+ r = a +s+ String e b -> exists a', a = x +s+ a' /\ r = a' +s+ String e b.
Proof.
  induction x as [|c x IH]; intros a b N E; [exists a; auto|]. cbn [has_char] in N. apply orb_false_iff in N as [N1 N2]. destruct a as [|d a].
  - cbn in E. injection E as -> _. rewrite Ascii.eqb_refl in N1. discriminate.
  - cbn in E. injection E as <- E. destruct (IH a b N2 E) as (a' & -> & ->). exists a'. auto.
Qed.
Lemma not_contains s sub a b : ~ occurs sub s -> s = a +s+ sub +s+ b -> False.
Proof. intros C E. apply C. exists a, b. exact E. Qed.
Lemma pre_case p : pre_at p -> p = "" \/ exists q, p = q +s+ "@".
Proof. intros [->|(q & c & _ & ->)]; [now left|right]. exists (q +s+ String c ""). rewrite sapp_assoc. reflexivity. Qed.
Lemma twice_https p t r : p +s+ "https://" +s+ t = "https://" +s+ r -> p = "" \/ exists a b, r = a +s+ "://" +s+ b.
Proof.
  intros E. destruct p as [|c p]; [now left|right]. do 7 (destruct p as [|? p]; [cbn in E; congruence|]). cbn in E. injection E. intros <- _ _ _ _ _ _ _ _.
  exists (p +s+ "https"), t. now rewrite sapp_assoc.
Qed.
Lemma plain_no_commit r c : plain_url r -> ~ commit_of ("https://" +s+ r) c.
Proof.
  intros (N1 & N2 & N3 & N4 & N5) H. remember ("https://" +s+ r) as s eqn:E. destruct H as [p sch x d P S L W|p x d P L W|p o q d O R W|p e f d D F W|h x d H L W].
  - apply pre_case in P as [->|(q & ->)].
    + destruct S as [<-|[<-|[<-|[<-|[]]]]]; discriminate.
    + rewrite sapp_assoc in E. symmetry in E. apply app_split in E as (a & _ & ->); [|reflexivity].
      apply (not_contains _ _ (a +s+ String "@" sch) (x +s+ "#" +s+ d) N1). rewrite !sapp_assoc. reflexivity.
  - apply pre_case in P as [->|(q & ->)].
    + apply (sapp_inj_l "https://") in E as <-. exact (not_contains _ _ x d N2 eq_refl).
    + rewrite sapp_assoc in E. symmetry in E. apply app_split in E as (a & _ & ->); [|reflexivity].
      apply (not_contains _ _ (a +s+ "@https") (x +s+ ".git#" +s+ d) N1). rewrite !sapp_assoc. reflexivity.
  - destruct (twice_https p ("codeload.github.com/" +s+ o +s+ "/" +s+ q +s+ "/tar.gz/" +s+ d) r E) as [->|(a & b & ->)]; [|exact (not_contains _ _ a b N1 eq_refl)].
    apply (sapp_inj_l "https://") in E. apply (N5 (o +s+ "/" +s+ q +s+ "/tar.gz/" +s+ d)). rewrite <- E. reflexivity.
  - replace (p +s+ String e "#commit" +s+ f +s+ d) with ((p +s+ String e "") +s+ String "#" ("commit" +s+ f +s+ d)) in E by (rewrite sapp_assoc; reflexivity).
    symmetry in E. apply app_split in E as (a & _ & ->); [|reflexivity]. destruct F as [<-|[<-|[]]].
    + exact (not_contains _ _ a d N3 eq_refl).
    + exact (not_contains _ _ a d N4 eq_refl).
  - destruct H as [<-|[<-|[<-|[]]]]; discriminate.
Qed.
Lemma extract_registry url r u : plain_url r -> url ("https://" +s+ r) = Some u -> ~ In (u_host u) ["bitbucket.org"; "github.com"; "gitlab.com"] ->
  try_extract_commit url ("https://" +s+ r) = "".
Proof.
  intros P U N. eapply url_commit_fun; [apply extract_url; intros c; now apply plain_no_commit|]. rewrite U. now apply uc_other.
Qed.
Lemma extract_spec url s : resolution_commit url s (try_extract_commit url s).
Proof.
  destruct (first_commit matchers s) as [c|] eqn:F.
  - left. assert (try_extract_commit url s = c) as -> by (unfold try_extract_commit; now rewrite F). eapply first_commit_of; [apply all_sound|exact F].
  - right. assert (N : forall c', ~ commit_of s c').
    { intros c' H. destruct (first_commit_some matchers s all_sound (complete _ _ H)) as (c & E & _). congruence. }
    split; [exact N|]. now apply extract_url.
Qed.
Lemma resolution_commit_fun url s c c' : resolution_commit url s c -> resolution_commit url s c' -> c = c'.
Proof. intros [H|[N H]] [H'|[N' H']]; [eapply commit_fun; eauto|destruct (N' _ H)|destruct (N _ H')|eapply url_commit_fun; eauto]. Qed.
