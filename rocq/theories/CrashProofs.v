From Coq Require Import QArith.
From Verif Require Import GoStr GoStrFacts Types Json JsonDec JsonRound MemDB MemDBProofs GoMap Scan Ecosystems LockIO Commit PkgMapSpec PkgMap Built LockSpec ListLocks KeyLocks KeyLocksProofs NpmLock NpmSpec NpmProofs PnpmLock PnpmSpec PnpmProofs YarnLock LineLocks GemLock GemProofs GoLock MavenLock GoSort Requirements RequirementsSpec RequirementsProofs OrderProofs Lockfile Parsers ParserSpec ParserProofs.
From Verif Require JsonGrammar.
Local Open Scope list_scope.
Local Open Scope nat_scope.

(** ** what a decoder takes from a document *)
Lemma inside_trans x y z : inside x y -> inside y z -> inside x z.
Proof. intros H K. induction K as [|l j I _ IH|l k j I _ IH]; [exact H|eapply in_arr; eauto|eapply in_obj; eauto]. Qed.
Definition member (v j : json) : Prop := exists l k, j = JObj l /\ In (k, v) l.
Lemma member_inside x v j : member v j -> inside x v -> inside x j.
Proof. intros (l & k & -> & I) H. eapply in_obj; eauto. Qed.
Lemma dec_struct_inv {S} (P : S -> Prop) set s0 j s : dec_struct set s0 j = Some s -> P s0 -> (forall k v a b, member v j -> set k v a = Some b -> P a -> P b) -> P s.
Proof.
  intros E P0 H. destruct j as [|b|n|x|l|l]; cbn in E; try discriminate; [injection E as <-; exact P0|].
  assert (G : forall r a, incl r l -> P a -> fold_left (fun acc kv => match acc with None => None | Some s => set (fold_key (fst kv)) (snd kv) s end) r (Some a) = Some s -> P s).
  { induction r as [|[k v] r IH]; intros a I A X; cbn [fold_left fst snd] in X; [injection X as <-; exact A|]. destruct (set (fold_key k) v a) as [b|] eqn:B.
    - apply (IH b); [intros y Y; apply I; now right|eapply H; [exists l, k; split; [reflexivity|apply I; now left]|exact B|exact A]|exact X].
    - exfalso. clear -X. induction r; [discriminate|auto]. }
  apply (G l s0); [apply incl_refl|exact P0|exact E].
Qed.
Lemma dec_map_inv {A} (Q : A -> Prop) d v m : dec_map d v = Some m -> (forall x a, member x v -> d x = Some a -> Q a) -> forall k a, In (k, a) (map_entries m) -> Q a.
Proof.
  intros E H. destruct v as [|b|n|x|l|l]; cbn in E; try discriminate; [injection E as <-; intros k a []|].
  assert (G : forall r acc m', incl r l -> (forall k a, In (k, a) acc -> Q a) -> fold_left (fun acc kv => match acc, d (snd kv) with Some m, Some a => Some (map_set (fst kv) a m) | _, _ => None end) r (Some acc) = Some m' -> forall k a, In (k, a) m' -> Q a).
  { induction r as [|[k v] r IH]; intros acc m' I AC X; cbn [fold_left fst snd] in X; [injection X as <-; exact AC|]. destruct (d v) as [a|] eqn:B.
    - apply (IH (map_set k a acc) m'); [intros y Y; apply I; now right| |exact X]. intros k' a' Y. apply map_set_in in Y as [[_ ->]|Y]; [|eauto]. eapply H; [exists l, k; split; [reflexivity|apply I; now left]|exact B].
    - exfalso. clear -X. induction r; [discriminate|auto]. }
  destruct (fold_left _ l (Some [])) as [m'|] eqn:F; [|discriminate]. injection E as <-. cbn. apply (G l []); [apply incl_refl|intros k a []|exact F].
Qed.
Definition from_doc (j : json) (s : string) : Prop := s = "" \/ inside (JStr s) j.
Lemma dec_string_from j v old s : member v j -> dec_string v old = Some s -> from_doc j old -> from_doc j s.
Proof. intros M E O. destruct v; cbn in E; try discriminate; injection E as <-; [exact O|]. right. eapply member_inside; [exact M|constructor]. Qed.
Lemma from_sub j v s : member v j -> from_doc v s -> from_doc j s.
Proof. intros M [->|H]; [now left|right; eapply member_inside; eauto]. Qed.

(** Pipenv *)
Lemma pipenv_package_from v s : dec_pipenv_package v = Some s -> from_doc v s.
Proof.
  intros E. unfold dec_pipenv_package in E. eapply (dec_struct_inv (from_doc v)); [exact E|now left|]. intros k x a b M B A. cbn -[seqb] in B. destruct (seqb k "version"); [eapply dec_string_from; eauto|injection B as <-; exact A].
Qed.
Lemma pipenv_from j a b : dec_pipenv j = Some (a, b) -> forall n v, In (n, v) (map_entries a ++ map_entries b) -> from_doc j v.
Proof.
  intros E. assert (H : forall n v, In (n, v) (map_entries (fst (a, b)) ++ map_entries (snd (a, b))) -> from_doc j v); [|exact H].
  unfold dec_pipenv in E. eapply (dec_struct_inv (fun s => forall n v, In (n, v) (map_entries (fst s) ++ map_entries (snd s)) -> from_doc j v)); [exact E|intros n v []|].
  intros k x [a1 b1] [a2 b2] M B A n v I. cbn [fst snd] in *.
  assert (S : forall m, dec_map dec_pipenv_package x = Some m -> forall n v, In (n, v) (map_entries m) -> from_doc j v).
  { intros m X n' v' I'. eapply from_sub; [exact M|]. eapply (dec_map_inv (from_doc x)); [exact X| |exact I']. intros y s Y Z. eapply from_sub; [exact Y|]. now apply pipenv_package_from. }
  destruct (seqb k "default"); [|destruct (seqb k "develop")].
  - destruct (dec_map _ x) as [m|]; [|discriminate]. injection B as <- <-. apply in_app_or in I as [I|I]; [eapply S; eauto|]. eapply A, in_or_app. eauto.
  - destruct (dec_map _ x) as [m|]; [|discriminate]. injection B as <- <-. apply in_app_or in I as [I|I]; [|eapply S; eauto]. eapply A, in_or_app. eauto.
  - injection B as <- <-. eauto.
Qed.
(** npm *)
Lemma dep_in_nil n v : dep_in [] n v -> False.
Proof. intros I. inversion I as [? ? ? ? X|? ? ? ? ? ? X]; destruct X. Qed.
Definition dep_from (j : json) (d : NpmDep) : Prop := from_doc j (nd_version d) /\ forall n v, dep_in (map_entries (nd_deps d)) n v -> from_doc j v.
Lemma dep_from_sub j v d : member v j -> dep_from v d -> dep_from j d.
Proof. intros M [A B]. split; [eapply from_sub; eauto|]. intros n w I. eapply from_sub; eauto. Qed.
Lemma deps_from j l : (forall n d, In (n, d) l -> dep_from j d) -> forall n v, dep_in l n v -> from_doc j v.
Proof.
  intros H n v I. destruct I as [l n v ds I|l n v l' n' v' I J]; destruct (H _ _ I) as [A B]; [exact A|]. exact (B _ _ J).
Qed.
Lemma dec_npm_dep_eq j : dec_npm_dep j = dec_struct (fun k v d =>
    if seqb k "version" then option_map (fun s => mkNpmDep s (nd_deps d)) (dec_string v (nd_version d))
    else if seqb k "dependencies" then option_map (mkNpmDep (nd_version d)) (dec_map dec_npm_dep v)
    else Some d) (mkNpmDep "" None) j.
Proof. destruct j; reflexivity. Qed.
Lemma inside_ind (Q : json -> Prop) : (forall j, (forall v, member v j -> forall x, inside x v -> Q x) -> Q j) -> forall j, Q j.
Proof.
  intros H. assert (G : forall j x, inside x j -> Q x); [|intros j; apply (G j); constructor].
  induction j as [|b|n|s|l IH|l IH] using json_ind'; intros x I;
    try (inversion I; subst; apply H; intros v (l & k & E & _); discriminate).
  - inversion I as [|? j J K|]; subst; [apply H; intros v (l' & k & E & _); discriminate|]. rewrite Forall_forall in IH. exact (IH j J x K).
  - rewrite Forall_forall in IH. inversion I as [| |? k j J K]; subst; [|exact (IH _ J x K)]. apply H. intros v (l' & k & E & J) y Y. injection E as <-. exact (IH _ J y Y).
Qed.
Lemma npm_dep_from j : forall d, dec_npm_dep j = Some d -> dep_from j d.
Proof.
  induction j as [j IH] using inside_ind. intros d E. rewrite dec_npm_dep_eq in E. eapply (dec_struct_inv (dep_from j)); [exact E|split; [now left|]; cbn; intros n v I; destruct (dep_in_nil _ _ I)|].
  intros k v a b M B [A1 A2]. cbv beta in B. destruct (seqb k "version"); [|destruct (seqb k "dependencies")].
  - destruct (dec_string v (nd_version a)) as [s|] eqn:S; [|discriminate]. cbn [option_map] in B. injection B as <-. split; [cbn; eapply dec_string_from; eauto|exact A2].
  - destruct (dec_map dec_npm_dep v) as [m|] eqn:S; [|discriminate]. cbn [option_map] in B. injection B as <-. split; [exact A1|]. cbn [nd_deps]. apply deps_from. intros n x I.
    eapply dep_from_sub; [exact M|]. eapply (dec_map_inv (dep_from v)); [exact S| |exact I]. intros y s Y Z. eapply dep_from_sub; [exact Y|]. apply (IH v M); [|exact Z]. eapply member_inside; [exact Y|constructor].
  - injection B as <-. split; assumption.
Qed.
Lemma npm_from j z ds ps : dec_npm j = Some (mkNpmLockfile z ds ps) -> forall n v, dep_in (map_entries ds) n v -> from_doc j v.
Proof.
  intros E. change ds with (nl_deps (mkNpmLockfile z ds ps)). unfold dec_npm in E. eapply (dec_struct_inv (fun l => forall n v, dep_in (map_entries (nl_deps l)) n v -> from_doc j v)); [exact E| |].
  - intros n v I. destruct (dep_in_nil _ _ I).
  - intros k v a b M B A. cbv beta in B. destruct (seqb k "lockfileversion"); [|destruct (seqb k "dependencies"); [|destruct (seqb k "packages")]].
    + destruct (dec_int _ _); [|discriminate]. cbn [option_map] in B. injection B as <-. exact A.
    + destruct (dec_map dec_npm_dep v) as [m|] eqn:S; [|discriminate]. cbn [option_map] in B. injection B as <-. cbn [nl_deps]. apply deps_from. intros n x I. eapply dep_from_sub; [exact M|]. eapply (dec_map_inv (dep_from v)); [exact S| |exact I]. intros y s Y Z. eapply dep_from_sub; [exact Y|]. now apply npm_dep_from.
    + destruct (dec_map dec_npm_package v); [|discriminate]. cbn [option_map] in B. injection B as <-. exact A.
    + injection B as <-. exact A.
Qed.
(** bun *)
Lemma bun_from j m : dec_bun j = Some m -> forall k, In (k, []) (map_entries m) -> inside JNull j \/ inside (JArr []) j.
Proof.
  intros E k I. unfold dec_bun in E. destruct (dec_struct _ _ j) as [[z m']|] eqn:S; [|discriminate]. injection E as ->. change m with (snd (z, m)) in I. revert k I.
  eapply (dec_struct_inv (fun s => forall k, In (k, []) (map_entries (snd s)) -> inside JNull j \/ inside (JArr []) j)); [exact S|intros k []|].
  intros k v [z1 m1] [z2 m2] M B A k' I. cbn [snd] in *. cbv beta iota in B. destruct (seqb k "lockfileversion"); [|destruct (seqb k "packages")].
  - destruct (dec_int _ _); [|discriminate]. cbn [option_map] in B. injection B as <- <-. eauto.
  - destruct (dec_map dec_tuple v) as [m3|] eqn:X; [|discriminate]. cbn [option_map] in B. injection B as <- <-.
    assert (T : exists x, member x v /\ dec_tuple x = Some []).
    { destruct (dec_map_inv (fun a => a = [] -> exists x, member x v /\ dec_tuple x = Some []) dec_tuple v m3 X) with (k := k') (a := @nil json) as (x & Y); auto; [|eauto]. intros x a MX DX ->. eauto. }
    destruct T as (x & MX & DX). assert (G : forall y, inside y x -> inside y j) by (intros y Y; eapply member_inside; [exact M|]; eapply member_inside; eauto).
    unfold dec_tuple, dec_list in DX. destruct x as [|?|?|?|l|?]; try discriminate; [left; apply G; constructor|]. destruct l as [|y l]; [right; apply G; constructor|]. cbn [dec_all] in DX. destruct (any_ok y); [|discriminate]. destruct (dec_all _ _); discriminate.
  - injection B as <- <-. eauto.
Qed.
(** ** crashes *)
Lemma decoded_panic {A} files (dec : string -> option A) path k : decoded files dec path k = Panic -> exists content a, files path = Text content false /\ dec content = Some a /\ k a = Panic.
Proof. unfold decoded, read_file. destruct (files path) as [|c []]; try discriminate. destruct (dec c) as [a|] eqn:E; [|discriminate]. eauto 6. Qed.
Lemma json_panic {A} files (dec : json -> option A) path k : decoded files (json_pointer dec) path (fun p => deref p k) = Panic ->
  holds files path JNull \/ exists j a, holds files path j /\ dec j = Some a /\ k a = Panic.
Proof.
  intros H. apply decoded_panic in H as (c & p & F & E & K). unfold json_pointer in E. destruct (Json.parse c) as [j|] eqn:J; [|discriminate].
  destruct p as [a|].
  - right. exists j, a. split; [exists c; split; [exact F|now apply JsonGrammar.parse_iff]|]. split; [|exact K]. destruct j; try discriminate; destruct (dec _); try discriminate; injection E as <-; reflexivity.
  - left. exists c. split; [exact F|]. destruct j; try (destruct (dec _); discriminate). now apply JsonGrammar.parse_iff.
Qed.
Lemma json_null {A} files (dec : json -> option A) path k : holds files path JNull -> decoded files (json_pointer dec) path (fun p => deref p k) = Panic.
Proof. intros (c & F & J). apply JsonGrammar.parse_iff in J. unfold decoded, read_file, json_pointer. rewrite F, J. reflexivity. Qed.
Section WithEnv.
Variable D : Decoders.
Variable it : Iter.
Hypothesis IT : IterOk it.
Variable files : string -> txt.
Variable depth : nat.
Lemma pipenv_crash path : parse_pipenv_lock it files path = Panic -> holds files path JNull \/ exists j c, holds files path j /\ inside (JStr (String c "")) j.
Proof.
  intros H. apply json_panic in H as [H|(j & [a b] & H & E & K)]; [now left|right]. destruct (pipenv_spec it IT (map_entries a) (map_entries b)) as [[_ X]|(ps & P & _)]; [|rewrite P in K; discriminate].
  apply Exists_exists in X as ([n v] & I & c & V). cbn in V. subst v. exists j, c. split; [exact H|]. destruct (pipenv_from j a b E n _ I) as [X|X]; [discriminate|exact X].
Qed.
Lemma npm_crash path : parse_npm_lock it files (dc_url D) path = Panic -> holds files path JNull \/ exists j v, holds files path j /\ bad_alias v /\ inside (JStr v) j.
Proof.
  intros H. apply json_panic in H as [H|(j & [z ds ps] & H & E & K)]; [now left|right]. unfold parse_npm in K. cbn [nl_packages nl_deps] in K. destruct ps as [ps|]; [discriminate|].
  destruct (dependencies_ok (dc_url D) it IT (map_entries ds)) as [[_ B]|(m & X & _)]; [|rewrite X in K; discriminate]. apply bad_iff in B as (n & v & I & B). exists j, v. split; [exact H|]. split; [exact B|].
  destruct (npm_from j z ds None E n v I) as [->|X]; [|exact X]. destruct B as (t & T & _). discriminate.
Qed.
Lemma bun_crash path : parse_bun_lock it files (dc_jsonc D) path = Panic -> exists j, holds (through (dc_jsonc D) files) path j /\ (inside JNull j \/ inside (JArr []) j).
Proof.
  intros H. assert (T : parse_bun_lock it files (dc_jsonc D) path = decoded (through (dc_jsonc D) files) (json_pointer dec_bun) path (fun p => deref p (fun m => rbind (bun_packages (it _ (map_entries m))) packages_of))).
  { unfold parse_bun_lock, decoded, read_file, through. destruct (files path) as [|c []]; reflexivity. }
  rewrite T in H. apply json_panic in H as [H|(j & m & H & E & K)]; [exists JNull; split; [exact H|left; constructor]|]. exists j. split; [exact H|].
  rewrite bun_packages_all in K. destruct (existsb _ _) eqn:X; [|discriminate]. apply existsb_exists in X as ([k t] & I & X). cbn in X. destruct t as [|]; [|discriminate]. eapply bun_from; [exact E|]. eapply Permutation_in; [symmetry; apply IT|exact I].
Qed.
Lemma bun_null path : holds (through (dc_jsonc D) files) path JNull -> parse_bun_lock it files (dc_jsonc D) path = Panic.
Proof.
  intros (c & F & J). apply JsonGrammar.parse_iff in J. unfold through in F. destruct (files path) as [|c' b] eqn:G; [discriminate|]. injection F as <- ->. unfold parse_bun_lock, decoded, read_file, json_pointer. rewrite G, J. reflexivity.
Qed.
Lemma pnpm_crash path : parse_pnpm_lock it files (dc_float D) (dc_pnpm D) path = Panic ->
  exists v l, pnpm_file files (dc_float D) (dc_pnpm D) path v l /\ ~ v == 9 /\ Exists (fun d => bare_scope (fst d)) l.
Proof.
  intros H. pose proof H as H0. apply decoded_panic in H as (c & [v l] & F & E & K). destruct (dc_pnpm D c) as [[[[ver ps]|]|]|] eqn:Y; try discriminate.
  - cbn in E. destruct (dc_float D ver) as [q|] eqn:Q; [|discriminate]. injection E as -> <-. destruct ps as [l'|].
    + assert (PF : pnpm_file files (dc_float D) (dc_pnpm D) path v l') by (exists c, ver; auto). pose proof (pnpm_fails it files (dc_float D) (dc_pnpm D) path v l' IT PF) as X. rewrite H0 in X. eauto.
    + exfalso. unfold parse_pnpm in K. cbn [map_entries pl_packages] in K. assert (N : it _ (@nil (string * PnpmPackage)) = []) by (apply Permutation_nil, (IT _ [])). cbn [map_entries pl_packages] in K; rewrite N in K; discriminate.
  - injection E as <- <-. exfalso. unfold parse_pnpm in K. cbn [pl_packages] in K. assert (N : it _ (@nil (string * PnpmPackage)) = []) by (apply Permutation_nil, (IT _ [])). cbn [map_entries pl_packages] in K; rewrite N in K; discriminate.
Qed.
Lemma yarn_never path : fst (parse_yarn_lock files (dc_url D) path) <> Panic.
Proof.
  unfold parse_yarn_lock. destruct (files path) as [|c fl]; [discriminate|]. destruct (scan c) as [ls tl]. destruct (_ || _)%bool; [discriminate|].
  assert (G : forall ls g, ~ In [] (group_lines ls g)).
  { clear. induction ls as [|l ls IH]; intros g; cbn [group_lines]; [destruct g; [intros []|intros [X|[]]; discriminate]|]. destruct (should_skip_yarn_line l); [apply IH|]. destruct (negb _); [|apply IH]. destruct g as [|x g]; [apply IH|]. intros [X|X]; [discriminate|exact (IH _ X)]. }
  assert (Y : forall gs, ~ In [] gs -> yarn_packages (dc_url D) gs <> Panic).
  { induction gs as [|g gs IH]; intros N; cbn [yarn_packages]; [discriminate|]. destruct g as [|h g]; [exfalso; apply N; now left|]. destruct (_ || _)%bool; [apply IH; intros X; apply N; now right|]. cbn [parse_package_group rbind]. destruct (yarn_packages _ gs) eqn:E; [discriminate|]. exfalso. apply IH; [intros X; apply N; now right|reflexivity]. }
  pose proof (Y _ (G ls [])) as P. unfold group_package_lines. destruct (yarn_packages _ _); [discriminate|congruence].
Qed.
Lemma lines_never line path : fst (line_parser files line path) <> Panic.
Proof. unfold line_parser. destruct (files path) as [|c fl]; [discriminate|]. destruct (scan c). destruct (_ || _)%bool; discriminate. Qed.
Lemma decoded_never {A} (dec : string -> option A) path k : (forall a, k a <> Panic) -> decoded files dec path k <> Panic.
Proof. intros H E. apply decoded_panic in E as (c & a & _ & _ & K). exact (H a K). Qed.
(** the parsers that never crash *)
Definition safe (f : ParserFn) : Prop :=
  match f with ParseBunLock | ParseComposerLock | ParseNpmLock | ParseNuGetLock | ParsePipenvLock | ParsePnpmLock | ParseRenvLock => False | _ => True end.
Lemma safe_never f path : safe f -> fst (run_parser D it files depth f path) <> Some Panic.
Proof.
  intros S E. destruct f; try destruct S; cbn [run_parser fst] in E; try (injection E as E); try (revert E; apply decoded_never; intros a; discriminate).
  - unfold parse_gemfile_lock in E. destruct (read_file files path); [|discriminate]. destruct (gem_parse s); discriminate.
  - exact (lines_never _ _ E).
  - unfold parse_maven_lock in E. destruct (read_file files path); [|discriminate]. destruct (dc_xml D s); [|discriminate]. destruct (dec_pom x); [|discriminate]. destruct (maven_loop _ _ _); discriminate.
  - revert E. apply decoded_never. intros [m|]; discriminate.
  - destruct (parse_requirements_txt it files depth path) as [[|]|]; discriminate.
  - exact (yarn_never _ E).
  - exact (lines_never _ _ E).
Qed.
Lemma crash_only f path : fst (run_parser D it files depth f path) = Some Panic -> crash_cause D files path f.
Proof.
  intros E. destruct f; try (exfalso; revert E; apply safe_never; exact I); cbn [run_parser fst] in E; injection E as E.
  - apply bun_crash in E as (j & H & K). eapply cc_tuple; eauto.
  - apply json_panic in E as [E|(j & [a b] & _ & _ & K)]; [apply cc_null; [cbn; tauto|exact E]|discriminate].
  - apply npm_crash in E as [E|(j & v & H & B & K)]; [apply cc_null; [cbn; tauto|exact E]|eapply cc_alias; eauto].
  - apply json_panic in E as [E|(j & m & _ & _ & K)]; [apply cc_null; [cbn; tauto|exact E]|]. destruct m as [z o]. destruct (negb (z =? 1)%Z); discriminate.
  - apply pnpm_crash in E as (v & l & P & N & X). eapply cc_scope; eauto.
  - apply pipenv_crash in E as [E|(j & c & H & K)]; [apply cc_null; [cbn; tauto|exact E]|eapply cc_short; eauto].
  - apply json_panic in E as [E|(j & m & _ & _ & K)]; [apply cc_null; [cbn; tauto|exact E]|discriminate].
Qed.
Lemma crash_null f path : In f [ParseComposerLock; ParseNpmLock; ParseNuGetLock; ParsePipenvLock; ParseRenvLock] -> holds files path JNull ->
  fst (run_parser D it files depth f path) = Some Panic.
Proof. intros F H. cbn in F. repeat destruct F as [<-|F]; try destruct F; cbn [run_parser fst]; f_equal; exact (json_null _ _ _ _ H). Qed.
Lemma crash_exact f path : In f [ParseComposerLock; ParseNuGetLock; ParseRenvLock] -> (fst (run_parser D it files depth f path) = Some Panic <-> holds files path JNull).
Proof.
  intros F. split; intros H; [|apply crash_null; [cbn in F |- *; tauto|exact H]]. apply crash_only in H. cbn in F. repeat destruct F as [<-|F]; try destruct F; inversion H; assumption.
Qed.
Lemma returns L f path : (forall p, files p <> Gone -> In p L) -> List.length L + 2 <= depth -> exists r, fst (run_parser D it files depth f path) = Some r.
Proof.
  intros FIN LE. destruct f; cbn [run_parser fst]; eauto.
  - apply gem_never_fatal.
  - destruct (parse_ends it files L FIN path) as (x & X). rewrite (X depth LE). cbn. eauto.
Qed.
Lemma map_get_In {A} k (v : A) m : map_get k m = Some v -> In (k, v) m.
Proof. induction m as [|[k' v'] m IH]; cbn -[seqb]; [discriminate|]. destruct (seqb _ _) eqn:S; intros E; [apply seqb_eq in S as ->; injection E as ->; now left|right; auto]. Qed.
Lemma file_eco path parse_as f n : find_parser path parse_as = (Some f, n) -> In (n, fn_eco f) file_ecosystem.
Proof.
  unfold find_parser. intros E. apply pair_equal_spec in E as [E <-]. apply map_get_In in E. unfold parsers in E.
  repeat (destruct E as [E|E]; [injection E as <- <-; cbn; tauto|]). destruct E.
Qed.
Lemma parsed_ecosystem S text path parse_as lf e p : SorterOk S -> parse S (impl D it files depth text) path parse_as = Ok (lf, e) -> In p (lf_pkgs lf) ->
  exists eco, In (lf_as lf, eco) file_ecosystem /\ p_eco p = eco /\ p_cmp p = eco.
Proof.
  intros SO H P. unfold parse in H. destruct (find_parser path parse_as) as [[f|] n] eqn:F.
  - destruct (impl D it files depth text f path) as [[ps err]|] eqn:R; [|discriminate]. cbn [rbind] in H. injection H as <- <-. cbn [lf_pkgs lf_as] in *.
    exists (fn_eco f). split; [eapply file_eco; eauto|]. unfold impl, parsed in R. destruct (fst (run_parser D it files depth f path)) as [[[x|qs]|]|] eqn:RP; try discriminate.
    + injection R as <- <-. apply (Permutation_in _ (Permutation_sym (proj1 (SO Pkg pkg_less [])))) in P. destruct P.
    + injection R as <- <-. eapply parser_eco; eauto. apply (Permutation_in _ (Permutation_sym (proj1 (SO Pkg pkg_less qs)))). exact P.
  - injection H as <- <-. destruct P.
Qed.
End WithEnv.
Definition mem_str (x : string) (l : list string) : bool := existsb (seqb x) l.
Lemma mem_str_in x l : mem_str x l = true -> In x l.
Proof. intros H. apply existsb_exists in H as (y & I & E). apply seqb_eq in E as ->. exact I. Qed.
Fixpoint distinct (l : list string) : bool := match l with [] => true | x :: l => negb (mem_str x l) && distinct l end.
Lemma distinct_nodup l : distinct l = true -> NoDup l.
Proof.
  induction l as [|x l IH]; cbn [distinct]; intros H; constructor; apply andb_prop in H as [A B]; [|auto].
  intros I. apply negb_true_iff in A. revert A. unfold mem_str. rewrite (proj2 (existsb_exists _ l)); [discriminate|]. exists x. split; [exact I|apply seqb_refl].
Qed.
Lemma file_ecosystem_known : NoDup (map fst file_ecosystem) /\ Forall (fun '(n, eco) => In n LockfileSpec.supported /\ In eco known_ecosystems) file_ecosystem.
Proof.
  split; [apply distinct_nodup; vm_compute; reflexivity|]. apply Forall_forall. intros [n eco] H.
  assert (A : forallb (fun x => mem_str (fst x) LockfileSpec.supported && mem_str (snd x) known_ecosystems) file_ecosystem = true) by (vm_compute; reflexivity).
  rewrite forallb_forall in A. apply A in H. apply andb_prop in H as [X Y]. split; apply mem_str_in; assumption.
Qed.
