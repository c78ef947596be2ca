From Coq Require Import QArith.
From Verif Require Import GoStr GoStrFacts Types Json JsonDec JsonRound MemDB MemDBProofs GoMap Scan Ecosystems LockIO Commit PkgMapSpec PkgMap Built LockSpec ListLocks KeyLocks KeyLocksProofs NpmLock NpmSpec NpmProofs PnpmLock PnpmSpec PnpmProofs YarnLock LineLocks GemLock GemProofs GoLock GoSpec GoProofs MavenLock MavenSpec MavenProofs Requirements RequirementsSpec RequirementsProofs Lockfile LockfileSpec Parsers ParserSpec.
Local Open Scope list_scope.
Local Open Scope nat_scope.

(** ** ecosystems *)
Definition of_eco (e : string) (p : Pkg) : Prop := p_eco p = e /\ p_cmp p = e.
Definition all_of (e : string) (r : pres) : Prop := forall ps p, r = Ok (inr ps) -> In p ps -> of_eco e p.
Definition fn_eco (f : ParserFn) : string :=
  match f with
  | ParseBunLock | ParseNpmLock | ParsePnpmLock | ParseYarnLock => "npm"
  | ParseCargoLock => "crates.io"
  | ParseComposerLock => "Packagist"
  | ParseGemfileLock => "RubyGems"
  | ParseGoLock => "Go"
  | ParseMixLock => "Hex"
  | ParseNuGetLock => "NuGet"
  | ParsePdmLock | ParsePoetryLock | ParsePylock | ParsePipenvLock | ParseRequirementsTxt | ParseUvLock => "PyPI"
  | ParseMavenLock | ParseGradleLock => "Maven"
  | ParsePubspecLock => "Pub"
  | ParseRenvLock => "CRAN"
  end.
Lemma all_decoded {A} e files (dec : string -> option A) path k : (forall a, all_of e (k a)) -> all_of e (decoded files dec path k).
Proof. intros H ps p. unfold decoded. destruct (read_file files path); [|discriminate]. destruct (dec s); [apply H|discriminate]. Qed.
Lemma all_deref {A} e (o : option A) k : (forall a, all_of e (k a)) -> all_of e (deref o k).
Proof. intros H. destruct o; [apply H|]. intros ps p E. discriminate. Qed.
Lemma all_fail e f : all_of e (fails_with f).
Proof. intros ps p E. discriminate. Qed.
Lemma all_list e ps : Forall (of_eco e) ps -> all_of e (packages_of ps).
Proof. intros F qs p E H. injection E as <-. rewrite Forall_forall in F. auto. Qed.
Lemma all_map {A} e (f : A -> Pkg) l : (forall a, of_eco e (f a)) -> Forall (of_eco e) (map f l).
Proof. intros H. apply Forall_map. apply Forall_forall. auto. Qed.
Lemma all_flat {A} e (f : A -> list Pkg) l : (forall a, Forall (of_eco e) (f a)) -> Forall (of_eco e) (flat_map f l).
Proof. intros H. apply Forall_flat_map. apply Forall_forall. auto. Qed.
(** maps of packages *)
Definition map_of (e : string) (m : list (string * Pkg)) : Prop := forall k p, In (k, p) m -> of_eco e p.
Lemma map_of_set e k p m : of_eco e p -> map_of e m -> map_of e (map_set k p m).
Proof. intros P M k' p' H. apply map_set_in in H as [[-> ->]|H]; [exact P|eauto]. Qed.
Lemma map_of_slice it e m : IterOk it -> map_of e m -> Forall (of_eco e) (map_to_slice it m).
Proof. intros IT M. apply Forall_forall. intros p H. apply in_map_iff in H as ([k q] & <- & H). apply (M k). eapply Permutation_in; [symmetry; apply IT|exact H]. Qed.
Lemma map_of_fold {A} e (f : list (string * Pkg) -> A -> list (string * Pkg)) l : (forall m a, map_of e m -> map_of e (f m a)) -> forall m, map_of e m -> map_of e (fold_left f l m).
Proof. intros H. induction l as [|a l IH]; intros m M; cbn; auto. Qed.
Lemma map_of_nil e : map_of e [].
Proof. intros k p []. Qed.
Ltac eco := repeat first [split | reflexivity | constructor].

Section WithEnv.
Variable D : Decoders.
Variable it : Iter.
Hypothesis IT : IterOk it.
Variable files : string -> txt.
Variable depth : nat.
Lemma map_of_copy e m m' : map_of e m -> map_of e m' -> map_of e (copy_map it m m').
Proof.
  intros M M'. unfold copy_map. assert (H : forall k p, In (k, p) (it _ m') -> of_eco e p) by (intros k p X; eapply M', Permutation_in; [symmetry; apply IT|exact X]). revert H m M.
  induction (it _ m') as [|[k p] l IH]; intros H m M; cbn; auto. apply IH; [intros; apply (H k0); now right|]. apply map_of_set; [apply (H k); now left|exact M].
Qed.
Lemma map_of_merge e m m' : map_of e m -> map_of e m' -> map_of e (merge_pkg_details it m m').
Proof. intros M M'. apply map_of_copy; [apply map_of_copy; [apply map_of_nil|exact M]|exact M']. Qed.
Lemma eco_bun path : all_of "npm" (parse_bun_lock it files (dc_jsonc D) path).
Proof.
  apply all_decoded. intros o. apply all_deref. intros m ps p E. destruct (bun_packages (it _ (map_entries m))) as [qs|] eqn:B; [|discriminate]. injection E as <-. intros I.
  revert qs B I. induction (it _ (map_entries m)) as [|[k t] l IH]; cbn [bun_packages]; intros qs B I; [injection B as <-; destruct I|].
  destruct (structure_package_details t) as [[[n v] c]|]; [|discriminate]. cbn [rbind] in B. destruct (bun_packages l) as [rs|]; [|discriminate]. cbn [rbind] in B. destruct (_ && _)%bool; injection B as <-; [eauto|]. destruct I as [<-|I]; [eco|eauto].
Qed.
Lemma eco_npm path : all_of "npm" (parse_npm_lock it files (dc_url D) path).
Proof.
  apply all_decoded. intros o. apply all_deref. intros [z ds [ps|]]; unfold parse_npm; cbn [nl_packages nl_deps].
  - apply all_list, map_of_slice; [exact IT|]. apply map_of_fold; [|apply map_of_nil]. intros m [n d] M. destruct (seqb n ""); [exact M|]. unfold npm_package. apply map_of_set; [eco|exact M].
  - destruct (dependencies_ok (dc_url D) it IT (map_entries ds)) as [[-> _]|(m & -> & B & _)]; [intros ps p E; discriminate|]. cbn [rbind]. apply all_list, map_of_slice; [exact IT|].
    intros k p H. apply (bu_from _ _ B) in H. apply in_flat_map in H as ([n v] & _ & H). cbn [fst snd] in H. destruct (npm_entry (dc_url D) n v) as [[k' p']|] eqn:E; [|destruct H]. destruct H as [H|[]]. injection H as -> ->.
    unfold npm_entry in E. destruct (has_prefix v "file:"); [injection E as <- <-; eco|]. destruct (if has_prefix v "npm:" then _ else _) as [[n' w]|]; [|discriminate]. cbn [rbind] in E. destruct (negb _); injection E as <- <-; eco.
Qed.
Lemma eco_pnpm path : all_of "npm" (parse_pnpm_lock it files (dc_float D) (dc_pnpm D) path).
Proof.
  apply all_decoded. intros l ps p E. unfold parse_pnpm in E. destruct (pnpm_loop _ _) as [[qs|]|] eqn:B; try discriminate. injection E as <-. intros I.
  revert qs B I. induction (it _ (pl_packages l)) as [|[k t] r IH]; cbn [pnpm_loop]; intros qs B I; [injection B as <-; destruct I|].
  destruct (extract_pnpm _ _) as [[[n v]|]|]; try discriminate. cbn [rbind] in B. destruct (_ || _)%bool; [eauto|]. destruct (pnpm_loop _ r) as [[rs|]|]; try discriminate. injection B as <-. destruct I as [<-|I]; [eco|eauto].
Qed.
Lemma eco_yarn path : all_of "npm" (fst (parse_yarn_lock files (dc_url D) path)).
Proof.
  unfold parse_yarn_lock. destruct (files path) as [|c fl]; [apply all_fail|]. destruct (scan c) as [ls tl]. destruct (_ || _)%bool; [apply all_fail|]. destruct (yarn_packages _ _) as [ps|] eqn:Y; [|intros ps p E; discriminate]. apply all_list.
  revert ps Y. induction (group_package_lines ls) as [|g gs IH]; cbn [yarn_packages]; intros ps Y; [injection Y as <-; constructor|]. destruct g as [|h g]; [discriminate|]. destruct (_ || _)%bool; [auto|]. cbn [parse_package_group rbind] in Y. destruct (yarn_packages _ gs) as [qs|]; [|discriminate]. injection Y as <-. constructor; [eco|auto].
Qed.
Lemma eco_lines e line path : (forall l p, fst (line l) = Some p -> of_eco e p) -> all_of e (fst (line_parser files line path)).
Proof.
  intros H. unfold line_parser. destruct (files path) as [|c fl]; [apply all_fail|]. destruct (scan c) as [ls tl]. destruct (_ || _)%bool; [apply all_fail|]. apply all_list, all_flat. intros l. specialize (H l). destruct (fst (line l)) as [p|]; constructor; [auto|constructor].
Qed.
Lemma eco_gradle_line l p : fst (gradle_line l) = Some p -> of_eco "Maven" p.
Proof. unfold gradle_line, parse_gradle_line. destruct (is_not_gradle_line _); [discriminate|]. destruct (split3 _ _) as [|a [|b [|c [|]]]]; try discriminate. intros E. injection E as <-. eco. Qed.
Lemma eco_mix_line l p : fst (mix_line l) = Some p -> of_eco "Hex" p.
Proof. unfold mix_line. destruct (Regex.find _ _) as [mm|]; [|discriminate]. destruct (fields_char _ _) as [|a [|b [|c [|d rest]]]]; try discriminate. destruct (if has_suffix a ":git" then _ else _). intros E. injection E as <-. eco. Qed.
Lemma eco_gem_lines : forall ls p q, Forall (of_eco "RubyGems") (gm_deps p) -> gem_lines p ls = Some q -> Forall (of_eco "RubyGems") (gm_deps q).
Proof.
  assert (SP : forall l p q, Forall (of_eco "RubyGems") (gm_deps p) -> parse_spec l p = Some q -> Forall (of_eco "RubyGems") (gm_deps q)).
  { intros l p q F. unfold parse_spec. destruct (Regex.find _ _); [|intros E; injection E as <-; exact F]. destruct (seqb _ _); [discriminate|]. destruct (Nat.eqb _ _); intros E; injection E as <-; [|exact F]. cbn. apply Forall_app. split; [exact F|]. constructor; [eco|constructor]. }
  assert (SO : forall l p q, Forall (of_eco "RubyGems") (gm_deps p) -> parse_source l p = Some q -> Forall (of_eco "RubyGems") (gm_deps q)).
  { intros l p q F. unfold parse_source. destruct (seqb _ _); [intros E; injection E as <-; exact F|]. destruct (Regex.find _ _); [|now apply SP]. intros E. injection E as <-. destruct (negb _); exact F. }
  induction ls as [|l ls IH]; intros p q F; cbn [gem_lines]; [intros E; injection E as <-; exact F|]. destruct (gem_line p l) as [p'|] eqn:G; [|discriminate]. apply IH. clear IH q. revert G. unfold gem_line.
  destruct (is_source_section l); [now apply SO|]. repeat (destruct (seqb l _); [intros E; injection E as <-; exact F|]). assert (F' : Forall (of_eco "RubyGems") (gm_deps (if is_not_indented l then in_state "" p else p))) by (destruct (is_not_indented l); exact F). revert F'. generalize (if is_not_indented l then in_state "" p else p). intros r F'.
  destruct (negb _); [|intros E; injection E as <-; exact F']. unfold parse_by_state. repeat (destruct (seqb _ _); [intros E; (injection E as <-; exact F') || (revert E; now apply SO)|]). discriminate.
Qed.
Lemma eco_gem path r : parse_gemfile_lock files path = Some r -> all_of "RubyGems" r.
Proof.
  unfold parse_gemfile_lock. destruct (read_file files path); [|intros E; injection E as <-; apply all_fail]. unfold gem_parse. destruct (gem_lines _ _) as [q|] eqn:G; [|discriminate]. intros E. injection E as <-. apply all_list. eapply eco_gem_lines; [|exact G]. constructor.
Qed.
Lemma eco_go path : all_of "Go" (parse_go_lock it files (dc_modfile D) path).
Proof.
  unfold parse_go_lock. destruct (read_file files path); [|apply all_fail]. destruct (dc_modfile D path s) as [f|]; [|apply all_fail]. apply all_list, map_of_slice; [exact IT|].
  assert (R : map_of "Go" (go_required (gm_require f))) by (apply map_of_fold; [intros m a M; apply map_of_set; [eco|exact M]|apply map_of_nil]).
  assert (G : map_of "Go" (fold_left (go_replace it) (gm_replace f) (go_required (gm_require f)))).
  { apply map_of_fold; [|exact R]. intros m a M. unfold go_replace. apply map_of_fold; [|exact M]. intros m' k M'. apply map_of_set; [eco|exact M']. }
  revert G. generalize (fold_left (go_replace it) (gm_replace f) (go_required (gm_require f))). intros m M. unfold deduplicate_packages.
  assert (H : forall k p, In (k, p) (it _ m) -> of_eco "Go" p) by (intros k p X; eapply M, Permutation_in; [symmetry; apply IT|exact X]). revert H. generalize (map_of_nil "Go"). generalize (@nil (string * Pkg)).
  induction (it _ m) as [|[k p] l IH]; intros acc A H; cbn; [exact A|]. apply IH; [|intros; apply (H k0); now right]. apply map_of_set; [apply (H k); now left|exact A].
Qed.
Lemma eco_maven path : all_of "Maven" (fst (parse_maven_lock it files (dc_xml D) path)).
Proof.
  unfold parse_maven_lock. destruct (read_file files path); [|apply all_fail]. destruct (dc_xml D s) as [r|]; [|apply all_fail]. destruct (dec_pom r) as [f|]; [|apply all_fail].
  assert (L : forall ds acc, map_of "Maven" (fst acc) -> map_of "Maven" (fst (maven_loop f ds acc))).
  { induction ds as [|d ds IH]; intros [m s'] M; [exact M|]. unfold maven_loop. cbn [fold_left]. destruct (resolve_version d f) as [v t]. apply IH. cbn [fst]. apply map_of_set; [eco|exact M]. }
  pose proof (L (mv_dependencies f) _ (L (mv_managed f) ([], []) (map_of_nil _))) as M. destruct (maven_loop f (mv_dependencies f) _) as [m t]. apply all_list, map_of_slice; [exact IT|exact M].
Qed.
Lemma eco_nuget path : all_of "NuGet" (parse_nuget_lock it files path).
Proof.
  apply all_decoded. intros o. apply all_deref. intros [v m]. destruct (negb _); [apply all_fail|]. apply all_list. apply Forall_forall. intros p H.
  apply (pk_from _ _ (nuget_pick it IT _)) in H. apply in_map_iff in H as ([k q] & <- & H). apply in_flat_map in H as (f & _ & H). apply in_map_iff in H as (d & E & _). injection E as <- <-. eco.
Qed.
Lemma eco_pipenv path : all_of "PyPI" (parse_pipenv_lock it files path).
Proof.
  apply all_decoded. intros o. apply all_deref. intros [a b]. destruct (pipenv_spec it IT (map_entries a) (map_entries b)) as [[-> _]|(ps & -> & O & _)]; [intros ps p E; discriminate|]. intros qs p E H. injection E as <-.
  destruct (pipenv_form _ _ (op_from _ _ _ O _ H)) as (n & v & ->). eco.
Qed.
Lemma eco_requirements path ps p : parse_requirements_txt it files depth path = Some (inr ps) -> In p ps -> of_eco "PyPI" p.
Proof.
  intros E H. destruct (parse_ok it IT files depth path ps E) as (_ & _ & F & _). destruct (F p H) as (q & _ & R). destruct R as (c & fl & ks & _ & (ls & _ & F2) & I).
  clear -F2 I. induction F2 as [|x k ls ks L F2 IH]; [destruct I|]. destruct I as [->|I]; [|auto]. inversion L as [| |q' _ R]; subst. destruct R; eco.
Qed.
Lemma parser_eco f path r ps p : fst (run_parser D it files depth f path) = Some r -> r = Ok (inr ps) -> In p ps -> of_eco (fn_eco f) p.
Proof.
  intros E -> H. destruct f; cbn [run_parser fst fn_eco] in *; try (injection E as E).
  - eapply eco_bun; eauto.
  - revert E H. apply (all_decoded "crates.io"). intros l. apply all_list. apply all_map. eco.
  - revert E H. apply (all_decoded "Packagist"). intros o. apply all_deref. intros [a b]. apply all_list, Forall_app. split; apply all_map; eco.
  - eapply eco_gem; eauto.
  - eapply eco_go; eauto.
  - revert E H. apply eco_lines, eco_mix_line.
  - eapply eco_npm; eauto.
  - eapply eco_nuget; eauto.
  - revert E H. apply (all_decoded "PyPI"). intros l. apply all_list. apply all_map. intros a. cbv zeta. destruct (negb _); eco.
  - eapply eco_pnpm; eauto.
  - revert E H. apply (all_decoded "PyPI"). intros l. apply all_list. apply all_map. eco.
  - revert E H. apply (all_decoded "PyPI"). intros l. apply all_list. apply all_flat. intros a. destruct (_ && _)%bool; constructor; [|constructor]. cbv zeta. destruct (negb _); eco.
  - eapply eco_pipenv; eauto.
  - eapply eco_maven; eauto.
  - revert E H. apply (all_decoded "Pub"). intros [m|]; apply all_list; [|constructor]. apply all_map. intros []. eco.
  - revert E H. apply (all_decoded "CRAN"). intros o. apply all_deref. intros m. apply all_list, all_flat. intros [k a]. destruct (_ && _)%bool; constructor; [eco|constructor].
  - destruct (parse_requirements_txt it files depth path) as [[e|qs]|] eqn:R; try discriminate. injection E as <-. eapply eco_requirements; eauto.
  - eapply eco_yarn; eauto.
  - revert E H. apply (all_decoded "PyPI"). intros l. apply all_list. apply all_flat. intros a. destruct (seqb _ _); constructor; [eco|constructor].
  - revert E H. apply eco_lines, eco_gradle_line.
Qed.
End WithEnv.
