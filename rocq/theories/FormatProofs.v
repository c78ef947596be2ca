(** Proofs that the parsers give what the bytes list (C85). *)
From Coq Require Import QArith.
From Verif Require Import GoStr GoStrFacts GoMap Types Json JsonSpec MemDB Scan LockIO Commit CommitSpec CommitProofs ListLocks KeyLocks LockSpec KeyLocksProofs ListLocksProofs YarnSpec YarnProofs LineLocks LineSpec LineProofs Lockfile Parsers FormatSpec.
From Verif Require PkgMapSpec GoLock GoSpec GoProofs GemSpec GemProofs MavenLock MavenSpec MavenProofs NpmLock NpmSpec NpmProofs PnpmSpec PnpmProofs RequirementsSpec RequirementsProofs JsonGrammar GemLock Requirements.
Local Open Scope string_scope.
Local Open Scope list_scope.

(** ** lists and what they make *)
Lemma makes_in {A} (R : A -> option Pkg -> Prop) l ps a : makes R l ps -> In a l -> exists o, R a o /\ forall p, o = Some p -> In p ps.
Proof.
  induction 1 as [|b p l ps H M IH|b l ps H M IH]; intros I; [destruct I| |]; destruct I as [<-|I].
  - exists (Some p). split; [exact H|]. intros q Q. injection Q as ->. now left.
  - destruct (IH I) as (o & Ho & K). exists o. split; [exact Ho|]. intros q Q. right. auto.
  - exists None. split; [exact H|discriminate].
  - auto.
Qed.
Lemma makes_from {A} (R : A -> option Pkg -> Prop) l ps p : makes R l ps -> In p ps -> exists a, In a l /\ R a (Some p).
Proof. induction 1 as [|b q l ps H M IH|b l ps H M IH]; intros I; [destruct I| |]; [destruct I as [<-|I]|]; [exists b; split; [now left|exact H]| |]; destruct (IH I) as (a & J & K); exists a; split; auto; now right. Qed.
Lemma makes_some {A} (R : A -> option Pkg -> Prop) l : (forall a, In a l -> exists o, R a o) -> exists ps, makes R l ps.
Proof.
  induction l as [|a l IH]; intros H; [exists []; constructor|]. destruct IH as [m M]; [intros x I; apply H; now right|]. destruct (H a (or_introl eq_refl)) as [[p|] B]; [exists (p :: m)|exists m]; now constructor.
Qed.
Lemma makes_at {A} (R : A -> option Pkg -> Prop) l a p : (forall a, In a l -> exists o, R a o) -> In a l -> R a (Some p) -> exists ps, makes R l ps /\ In p ps.
Proof.
  induction l as [|b l IH]; intros H I K; [destruct I|]. destruct I as [->|I].
  - destruct (makes_some R l) as [m M]; [intros x I; apply H; now right|]. exists (p :: m). split; [now constructor|now left].
  - destruct IH as (ps & M & J); auto. { intros x X. apply H. now right. } destruct (H b (or_introl eq_refl)) as [[q|] B]; [exists (q :: ps)|exists ps]; (split; [now constructor|]); [now right|exact J].
Qed.
Lemma forall2_some {A B} (R : A -> B -> Prop) l : (forall a, In a l -> exists b, R a b) -> exists m, Forall2 R l m.
Proof. induction l as [|a l IH]; intros H; [exists []; constructor|]. destruct (H a (or_introl eq_refl)) as [b B0], IH as [m M]; [intros x I; apply H; now right|]. exists (b :: m). now constructor. Qed.
Lemma forall2_at {A B} (R : A -> B -> Prop) l a b : (forall a, In a l -> exists b, R a b) -> In a l -> R a b -> exists m, Forall2 R l m /\ In b m.
Proof.
  induction l as [|c l IH]; intros H I K; [destruct I|]. destruct I as [->|I].
  - destruct (forall2_some R l) as [m M]; [intros x I; apply H; now right|]. exists (b :: m). split; [now constructor|now left].
  - destruct IH as (m & M & J); auto. { intros x X. apply H. now right. } destruct (H c (or_introl eq_refl)) as [d Dd]. exists (d :: m). split; [now constructor|now right].
Qed.
Lemma forall2_right {A B} (R : A -> B -> Prop) l m b : Forall2 R l m -> In b m -> exists a, In a l /\ R a b.
Proof. induction 1 as [|x y l m H F IH]; intros I; [destruct I|]. destruct I as [<-|I]; [exists x; split; [now left|exact H]|]. destruct (IH I) as (a & J & K). exists a. split; [now right|exact K]. Qed.
Lemma first_fun (P : string -> string -> Prop) : (forall l v w, P l v -> P l w -> v = w) -> forall ls v w, first_in P ls v -> first_in P ls w -> v = w.
Proof.
  intros F ls v w H. revert w. induction H as [l ls v H|l ls v N H IH|]; intros w K; inversion K as [? ? ? K1|? ? ? K1 K2|]; subst; eauto; exfalso; [now apply (K1 v)|now apply (N w)].
Qed.
(** ** every entry makes something *)
Lemma cargo_total e : exists p, cargo_entry e p. Proof. destruct e. eexists. constructor. Qed.
Lemma pdm_total e : exists p, pdm_entry e p. Proof. destruct e. eexists. constructor. Qed.
Lemma poetry_total e : exists p, poetry_entry e p. Proof. destruct e. eexists. constructor. Qed.
Lemma pubspec_total e : exists p, pubspec_entry e p. Proof. destruct e as [n [v d]]. eexists. constructor. Qed.
Lemma composer_total e : exists p, composer_entry e p. Proof. destruct e as [n v r]. destruct (has_char "." r) eqn:H; eexists; constructor; [now apply cc_tag|now apply cc_commit]. Qed.
Lemma pylock_total e : exists o, pylock_entry e o.
Proof. destruct e as [n v c d]. destruct (seqb_spec v "") as [->|V]; [|eexists; constructor; auto]. destruct (seqb_spec d ".") as [->|V]; eexists; constructor; auto. Qed.
Lemma first_char c s : has_char c s = true -> exists a b, s = (a +s+ String c b)%string /\ has_char c a = false.
Proof.
  induction s as [|d s IH]; intros H; [discriminate H|]. cbn [has_char] in H. destruct (Ascii.eqb_spec c d) as [->|N]; [exists "", s; auto|].
  destruct IH as (a & b & -> & K); [exact H|]. exists (String d a), b. split; [reflexivity|]. cbn [has_char]. destruct (Ascii.eqb_spec c d); [contradiction|exact K].
Qed.
Lemma uv_total e : exists o, uv_entry e o.
Proof.
  destruct e as [n v w g]. destruct (seqb_spec w ".") as [->|W]; [eexists; constructor|]. destruct (has_char "#" g) eqn:H; [|eexists; now apply uve].
  apply first_char in H as (a & c & -> & H). eexists. now apply uve_git.
Qed.
Lemma renv_total e : exists o, renv_entry e o.
Proof. destruct e as [n v r]. destruct (seqb_spec r "") as [->|W]; [eexists; constructor|]. destruct (seqb_spec r "CRAN") as [->|W']; eexists; [constructor|now apply re_other]. Qed.

Ltac which G := vm_compute in G; injection G as <-; cbn [run_parser fst].
Section WithEnv.
Variable D : Decoders.
Variable it : Iter.
Hypothesis IT : IterOk it.
Variable files : string -> txt.
Variable depth : nat.
Lemma lists_parsed name f path ps p : map_get name parsers = Some f -> fst (run_parser D it files depth f path) = Some (Ok (inr ps)) ->
  format_lists D files path name p -> In p ps.
Proof.
  intros G P L. destruct L as [ls bs h t n v r c FL YB I Sk Hn Vl Rl Rc|name ls l p [<-|[<-|[]]] FL I M|ls l p FL I M|content ls ss qs p F R S M I|cs ds d s p Dc De W M|f0 p (content & F & Mf & V1 & V2) S|p T R
    |l e p Dc I M|l e p Dc I M|l e p Dc I M|l e p Dc I M|l e p Dc I M|m e p Dc I M|j a b e p J C I M|j m e p J C I M|m p (j & J & Dc & T) I|m p (j & a & b & J & Dc & -> & T) I
    |m d p (content & j & F & J & Dc & A) I M|deps k p (j & J & Dc & A & S) M|l p (j & J & Dc & Nm & Cl) M|nine l d p (v & F & N & A) I M]; which G; revert P; cbn [run_parser fst].
  - intros P. destruct (yarn_lock files (dc_url D) path ls bs FL YB) as (qs & Q & M). rewrite Q in P. cbn [fst] in P. injection P as ->.
    destruct (makes_in _ _ _ _ M I) as (o & (h' & t' & Eb & [[K _]|[_ (p & -> & (h2 & t2 & v' & r' & c' & Eb2 & V & R & C & P1 & P2 & P3 & P4 & P5))]]) & J).
    { injection Eb as <- <-. contradiction. }
    injection Eb2 as <- <-. specialize (J p eq_refl). specialize (P5 n Hn). rewrite (first_fun _ version_fun _ _ _ V Vl) in P1. pose proof (first_fun _ resolution_fun _ _ _ R Rl) as ->.
    rewrite (resolution_commit_fun _ _ _ _ C Rc) in P2. destruct p as [pn pv pc pe pm]. cbn in P1, P2, P3, P4, P5. subst. exact J.
  - intros P. destruct (gradle_lock files path ls FL) as (qs & said & Q & Mk & _). rewrite Q in P. injection P as ->. destruct (makes_in _ _ _ _ Mk I) as (o & Ho & K). apply K. eapply gradle_makes_fun; eauto.
  - intros P. destruct (gradle_lock files path ls FL) as (qs & said & Q & Mk & _). rewrite Q in P. injection P as ->. destruct (makes_in _ _ _ _ Mk I) as (o & Ho & K). apply K. eapply gradle_makes_fun; eauto.
  - intros P. destruct (mix_lock files path ls FL) as (qs & said & Q & Mk & _). rewrite Q in P. injection P as ->. destruct (makes_in _ _ _ _ Mk I) as (o & Ho & K). apply K. eapply mix_makes_fun; eauto.
  - intros P. destruct (GemProofs.gem_lock files path content ls ss F R S) as (qs' & Q & Mk). rewrite Q in P. injection P as ->. now rewrite <- (GemProofs.sections_fun _ _ M _ Mk).
  - intros P. destruct Dc as (content & F & X). destruct (MavenProofs.maven_lock it files (dc_xml D) path content cs ds IT F X De) as (qs & said & Q & _ & K & _). rewrite Q in P. injection P as ->. apply K. eauto.
  - intros P. destruct (GoProofs.go_exact it files (dc_modfile D) path content f0 IT F Mf (conj V1 V2)) as (qs & Q & _ & K). rewrite Q in P. injection P as ->. now apply K.
  - intros P. destruct (Requirements.parse_requirements_txt it files depth path) as [[e|qs]|] eqn:Q; try discriminate P. injection P as ->.
    apply (proj2 (RequirementsProofs.parse_exact it IT files depth path ps Q (fun q x H K => T x (ex_intro _ q (conj H K))))). exact R.
  - intros P. destruct (forall2_at cargo_entry l e p) as (m & Fm & K); auto using cargo_total. rewrite (cargo_lock files (dc_cargo D) path l m Dc Fm) in P. now injection P as ->.
  - intros P. destruct (forall2_at pdm_entry l e p) as (m & Fm & K); auto using pdm_total. rewrite (pdm_lock files (dc_pdm D) path l m Dc Fm) in P. now injection P as ->.
  - intros P. destruct (forall2_at poetry_entry l e p) as (m & Fm & K); auto using poetry_total. rewrite (poetry_lock files (dc_poetry D) path l m Dc Fm) in P. now injection P as ->.
  - intros P. destruct (makes_at pylock_entry l e p) as (m & Fm & K); auto using pylock_total. rewrite (pylock_lock files (dc_pylock D) path l m Dc Fm) in P. now injection P as ->.
  - intros P. destruct (makes_at uv_entry l e p) as (m & Fm & K); auto using uv_total. rewrite (uv_lock files (dc_uv D) path l m Dc Fm) in P. now injection P as ->.
  - intros P. destruct (forall2_at pubspec_entry m e p) as (qs & Fm & K); auto using pubspec_total. destruct (pubspec_lock it files (dc_pubspec D) path m qs IT Dc Fm) as (out & Q & Pe). rewrite Q in P. injection P as ->. exact (Permutation_in _ Pe K).
  - intros P. apply in_app_or in I. destruct (forall2_some composer_entry a) as (qa & Fa); auto using composer_total. destruct (forall2_some composer_entry b) as (qb & Fb); auto using composer_total.
    destruct I as [I|I]; [destruct (forall2_at composer_entry a e p) as (m & Fm & K); auto using composer_total; rewrite (composer_lock files path j a b m qb J C Fm Fb) in P
      |destruct (forall2_at composer_entry b e p) as (m & Fm & K); auto using composer_total; rewrite (composer_lock files path j a b qa m J C Fa Fm) in P]; injection P as <-; apply in_or_app; auto.
  - intros P. destruct (makes_at (fun x => renv_entry (snd x)) m e p) as (qs & Fm & K); auto using renv_total. destruct (renv_lock it files path j m qs IT J C Fm) as (out & Q & Pe). rewrite Q in P. injection P as ->. exact (Permutation_in _ Pe K).
  - intros P. destruct (nuget_lock_exact it IT files path j m J Dc T) as (qs & Q & _ & K). rewrite Q in P. injection P as ->. now apply K.
  - intros P. destruct (pipenv_lock it IT files path j a b J Dc) as [[_ Q]|[Sh _]]; [rewrite Q in P; discriminate P|].
    destruct (pipenv_lock_exact it IT files path j a b J Dc Sh T) as (qs & Q & _ & K). rewrite Q in P. injection P as ->. now apply K.
  - intros P. destruct (forall2_at (fun d o => bun_entry (snd d) o) m d (Some p)) as (es & Fm & K); auto. apply JsonGrammar.parse_iff in J.
    destruct (bun_lock it files (dc_jsonc D) path content j m es IT F J Dc Fm) as (out & Q & Pe). rewrite Q in P. injection P as ->. apply (Permutation_in _ Pe). apply in_flat_map. exists (Some p). split; [exact K|now left].
  - intros P. destruct (NpmProofs.npm_exact1 it files (dc_url D) path j deps IT J Dc A S) as (qs & Q & K). rewrite Q in P. injection P as ->. apply K. eauto.
  - intros P. destruct (NpmProofs.npm_lock2 it files (dc_url D) path j l IT J Dc) as (es & out & Q & [_ On1 On2] & Fm). rewrite Q in P. injection P as ->.
    assert (W : forall x, In x es -> npm_made D l x).
    { intros x X. destruct (forall2_right _ _ _ _ Fm X) as ([q d] & Y & Z). apply filter_In in Y as [Y N]. exists q, d. split; [exact Y|]. split; [|exact Z]. intros ->. discriminate N. }
    assert (In p es) as I.
    { destruct M as (q & d & Y & N & Z). destruct (Nm q d Y N) as (e & n & R1 & R2).
      assert (Y' : In (q, d) (filter (fun d => negb (seqb (fst d) "")) l)) by (apply filter_In; split; [exact Y|]; cbn [fst]; destruct (seqb_spec q ""); auto; contradiction).
      revert Y'. generalize dependent (filter (fun d : string * NpmLock.NpmPackage => negb (seqb (fst d) "")) l). intros l0 Fm Y'. clear - Fm Y' Z R1 R2. induction Fm as [|x y l' es H F IH]; [destruct Y'|]. destruct Y' as [->|Y']; [left; eapply NpmProofs.npm_package_fun; eauto|right; auto]. }
    specialize (On2 p I). apply in_map_iff in On2 as (x & Ex & Ix). now rewrite (Cl p x (W p I) (W x (On1 x Ix)) (eq_sym Ex)).
  - intros P. destruct (makes_at (PnpmSpec.pnpm_entry nine) l d p) as (qs & Fm & K); auto. destruct (PnpmProofs.pnpm_lock it files (dc_float D) (dc_pnpm D) path v nine l qs IT F N Fm) as (out & Q & Pe). rewrite Q in P. injection P as ->. exact (Permutation_in _ Pe K).
Qed.
Lemma line_ok line path : match fst (line_parser files line path) with Ok (inr _) => exists ls, file_lines files path ls | _ => True end.
Proof.
  unfold line_parser. destruct (files path) as [|content fails] eqn:F; [exact I|]. destruct (scan content) as [ls e] eqn:S. destruct (e || fails) eqn:E; [exact I|].
  apply orb_false_iff in E as [-> ->]. cbn [fst]. exists ls, content. auto.
Qed.
Lemma decoded_ok {A} (decode : string -> option A) path k ps : decoded files decode path k = Ok (inr ps) -> exists a, decodes files path decode a.
Proof. unfold decoded, read_file. destruct (files path) as [|c []] eqn:F; try discriminate. destruct (decode c) as [a|] eqn:E; [|discriminate]. exists a, c. auto. Qed.
Lemma only_parsed name f path ps p : map_get name parsers = Some f -> fst (run_parser D it files depth f path) = Some (Ok (inr ps)) ->
  format_clear D files path name -> In p ps -> format_lists D files path name p.
Proof.
  intros G P L J. destruct L as [name A|ls bs FL YB A|f0 (content & F & Mf & V1 & V2)|T|j a b Js C|j m Js C|m (j & Js & Dc & T)|m (j & a & b & Js & Dc & -> & T)
    |m (content & j & F & Js & Dc & A)|deps (j & Js & Dc & A & S)|l (j & Js & Dc & Nm & Cl)|nine l (v & F & N & A)].
  - cbn [always_clear In] in A. repeat destruct A as [<-|A]; try destruct A; which G; revert P; cbn [run_parser fst]; intros P.
    + injection P as P. assert (K := line_ok gradle_line path). unfold parse_gradle_lock in P. rewrite P in K. destruct K as (ls & FL). destruct (gradle_lock files path ls FL) as (qs & said & Q & Mk & _).
      unfold parse_gradle_lock in Q. rewrite Q in P. injection P as ->. destruct (makes_from _ _ _ _ Mk J) as (l & I & M). eapply fl_gradle; eauto. cbn; auto.
    + injection P as P. assert (K := line_ok gradle_line path). unfold parse_gradle_lock in P. rewrite P in K. destruct K as (ls & FL). destruct (gradle_lock files path ls FL) as (qs & said & Q & Mk & _).
      unfold parse_gradle_lock in Q. rewrite Q in P. injection P as ->. destruct (makes_from _ _ _ _ Mk J) as (l & I & M). eapply fl_gradle; eauto. cbn; auto.
    + injection P as P. assert (K := line_ok mix_line path). unfold parse_mix_lock in P. rewrite P in K. destruct K as (ls & FL). destruct (mix_lock files path ls FL) as (qs & said & Q & Mk & _).
      unfold parse_mix_lock in Q. rewrite Q in P. injection P as ->. destruct (makes_from _ _ _ _ Mk J) as (l & I & M). eapply fl_mix; eauto.
    + destruct (files path) as [|content []] eqn:F; [rewrite GemProofs.gem_unread in P; [discriminate P|congruence]|rewrite GemProofs.gem_unread in P; [discriminate P|congruence]|].
      destruct (GemProofs.raw_total (S (String.length content)) content (le_n _)) as (ls & R). destruct (GemProofs.sections_total ls) as (ss & S). destruct (GemProofs.gem_lock files path content ls ss F R S) as (qs & Q & Mk).
      rewrite Q in P. injection P as ->. eapply fl_gem; eauto.
    + injection P as P. destruct (files path) as [|content []] eqn:F; [rewrite MavenProofs.maven_unread in P; [discriminate P|congruence]|rewrite MavenProofs.maven_unread in P; [discriminate P|congruence]|].
      destruct (dc_xml D content) as [[x|n cs]|] eqn:X; [rewrite MavenProofs.maven_unread in P; [rewrite F in P; discriminate P|congruence]| |rewrite MavenProofs.maven_unread in P; [rewrite F in P; discriminate P|congruence]].
      destruct (seqb_spec n "project") as [->|N]; [|rewrite MavenProofs.maven_unread in P; [rewrite F in P; discriminate P|congruence]].
      destruct (MavenProofs.declared_total cs) as (ds & De). destruct (MavenProofs.maven_lock it files (dc_xml D) path content cs ds IT F X De) as (qs & said & Q & _ & K & _).
      rewrite Q in P. injection P as ->. apply K in J as (d & s & W & M). eapply fl_maven; eauto. exists content. auto.
    + injection P as P. destruct (decoded_ok _ _ _ _ P) as (l & R). destruct (forall2_some cargo_entry l) as (m & Fm); auto using cargo_total.
      rewrite (cargo_lock files (dc_cargo D) path l m R Fm) in P. injection P as ->. destruct (forall2_right _ _ _ _ Fm J) as (e & I & M). eapply fl_cargo; eauto.
    + injection P as P. destruct (decoded_ok _ _ _ _ P) as (l & R). destruct (forall2_some pdm_entry l) as (m & Fm); auto using pdm_total.
      rewrite (pdm_lock files (dc_pdm D) path l m R Fm) in P. injection P as ->. destruct (forall2_right _ _ _ _ Fm J) as (e & I & M). eapply fl_pdm; eauto.
    + injection P as P. destruct (decoded_ok _ _ _ _ P) as (l & R). destruct (forall2_some poetry_entry l) as (m & Fm); auto using poetry_total.
      rewrite (poetry_lock files (dc_poetry D) path l m R Fm) in P. injection P as ->. destruct (forall2_right _ _ _ _ Fm J) as (e & I & M). eapply fl_poetry; eauto.
    + injection P as P. destruct (decoded_ok _ _ _ _ P) as (l & R). destruct (makes_some pylock_entry l) as (m & Fm); auto using pylock_total.
      rewrite (pylock_lock files (dc_pylock D) path l m R Fm) in P. injection P as ->. destruct (makes_from _ _ _ _ Fm J) as (e & I & M). eapply fl_pylock; eauto.
    + injection P as P. destruct (decoded_ok _ _ _ _ P) as (l & R). destruct (makes_some uv_entry l) as (m & Fm); auto using uv_total.
      rewrite (uv_lock files (dc_uv D) path l m R Fm) in P. injection P as ->. destruct (makes_from _ _ _ _ Fm J) as (e & I & M). eapply fl_uv; eauto.
    + injection P as P. destruct (decoded_ok _ _ _ _ P) as ([[m|]|] & R).
      * destruct (forall2_some pubspec_entry m) as (qs & Fm); auto using pubspec_total. destruct (pubspec_lock it files (dc_pubspec D) path m qs IT R Fm) as (out & Q & Pe). rewrite Q in P. injection P as ->.
        apply (Permutation_in _ (Permutation_sym Pe)) in J. destruct (forall2_right _ _ _ _ Fm J) as (e & I & M). eapply fl_pubspec; eauto.
      * unfold parse_pubspec_lock in P. rewrite (decoded_read _ _ _ _ _ R) in P. injection P as <-. exfalso. cbn [map_entries] in J. unfold pubspec_packages in J. pose proof (IT _ (@nil (string * PubPackage))) as N. apply Permutation_nil in N. rewrite N in J. destruct J.
      * unfold parse_pubspec_lock in P. rewrite (decoded_read _ _ _ _ _ R) in P. injection P as <-. destruct J.
  - which G. revert P. cbn [run_parser fst]. intros P. destruct (yarn_lock files (dc_url D) path ls bs FL YB) as (qs & Q & M). rewrite Q in P. injection P as ->.
    destruct (makes_from _ _ _ _ M J) as (b & I & (h & t & -> & [[_ X]|[Sk (p' & X & (h2 & t2 & v & r & c & Eb & V & R & C & P1 & P2 & P3 & P4 & P5))]])); [discriminate X|].
    injection X as <-. injection Eb as <- <-. destruct (A h t I) as [K|(n & Hn)]; [contradiction|]. specialize (P5 n Hn). destruct p as [pn pv pc pe pm]. cbn in P1, P2, P3, P4, P5. subst. eapply fl_yarn; eauto.
  - which G. revert P. cbn [run_parser fst]. intros P. destruct (GoProofs.go_exact it files (dc_modfile D) path content f0 IT F Mf (conj V1 V2)) as (qs & Q & _ & K). rewrite Q in P. injection P as ->. apply fl_go with f0; [exists content; auto|now apply K].
  - which G. revert P. cbn [run_parser fst]. intros P. destruct (Requirements.parse_requirements_txt it files depth path) as [[e|qs]|] eqn:Q; try discriminate P. injection P as ->.
    apply fl_requirements; [exact T|]. apply (proj2 (RequirementsProofs.parse_exact it IT files depth path ps Q (fun q x H K => T x (ex_intro _ q (conj H K))))). exact J.
  - which G. revert P. cbn [run_parser fst]. intros P. destruct (forall2_some composer_entry a) as (qa & Fa); auto using composer_total. destruct (forall2_some composer_entry b) as (qb & Fb); auto using composer_total.
    rewrite (composer_lock files path j a b qa qb Js C Fa Fb) in P. injection P as <-. destruct (forall2_right _ _ _ _ (Forall2_app Fa Fb) J) as (e & I & M). eapply fl_composer; eauto.
  - which G. revert P. cbn [run_parser fst]. intros P. destruct (makes_some (fun x => renv_entry (snd x)) m) as (qs & Fm); auto using renv_total. destruct (renv_lock it files path j m qs IT Js C Fm) as (out & Q & Pe). rewrite Q in P. injection P as ->.
    apply (Permutation_in _ (Permutation_sym Pe)) in J. destruct (makes_from _ _ _ _ Fm J) as (e & I & M). eapply fl_renv; eauto.
  - which G. revert P. cbn [run_parser fst]. intros P. destruct (nuget_lock_exact it IT files path j m Js Dc T) as (qs & Q & _ & K). rewrite Q in P. injection P as ->. apply (fl_nuget _ _ _ m); [exists j; auto|now apply K].
  - which G. revert P. cbn [run_parser fst]. intros P. destruct (pipenv_lock it IT files path j a b Js Dc) as [[_ Q]|[Sh _]]; [rewrite Q in P; discriminate P|].
    destruct (pipenv_lock_exact it IT files path j a b Js Dc Sh T) as (qs & Q & _ & K). rewrite Q in P. injection P as ->. apply (fl_pipenv _ _ _ (a ++ b)); [exists j, a, b; auto|now apply K].
  - which G. revert P. cbn [run_parser fst]. intros P. destruct (forall2_some (fun d o => bun_entry (snd d) o) m) as (es & Fm); auto. pose proof Js as Js'. apply JsonGrammar.parse_iff in Js'.
    destruct (bun_lock it files (dc_jsonc D) path content j m es IT F Js' Dc Fm) as (out & Q & Pe). rewrite Q in P. injection P as ->.
    apply (Permutation_in _ (Permutation_sym Pe)) in J. apply in_flat_map in J as (o & Io & K). destruct o as [q|]; [destruct K as [->|[]]|destruct K].
    destruct (forall2_right _ _ _ _ Fm Io) as (d & Id & M). apply (fl_bun _ _ _ m d); auto. exists content, j. auto.
  - which G. revert P. cbn [run_parser fst]. intros P. destruct (NpmProofs.npm_exact1 it files (dc_url D) path j deps IT Js Dc A S) as (qs & Q & K). rewrite Q in P. injection P as ->. apply K in J as (k & M). eapply fl_npm1; [|exact M]. exists j. auto.
  - which G. revert P. cbn [run_parser fst]. intros P. destruct (NpmProofs.npm_lock2 it files (dc_url D) path j l IT Js Dc) as (es & out & Q & [_ On1 On2] & Fm). rewrite Q in P. injection P as ->.
    apply (fl_npm2 _ _ _ l); [exists j; auto|]. apply On1 in J. destruct (forall2_right _ _ _ _ Fm J) as ([q d] & Y & Z). apply filter_In in Y as [Y N]. exists q, d. split; [exact Y|]. split; [|exact Z]. intros ->. discriminate N.
  - which G. revert P. cbn [run_parser fst]. intros P. destruct (makes_some (PnpmSpec.pnpm_entry nine) l) as (qs & Fm); auto. destruct (PnpmProofs.pnpm_lock it files (dc_float D) (dc_pnpm D) path v nine l qs IT F N Fm) as (out & Q & Pe). rewrite Q in P. injection P as ->.
    apply (Permutation_in _ (Permutation_sym Pe)) in J. destruct (makes_from _ _ _ _ Fm J) as (d & I & M). eapply fl_pnpm; eauto. exists v. auto.
Qed.
End WithEnv.
