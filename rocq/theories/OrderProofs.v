From Coq Require Import QArith.
From Verif Require Import GoStr GoStrFacts Types Json JsonDec MemDB MemDBProofs GoMap Scan ScanProofs Ecosystems LockIO PkgMapSpec PkgMap Built LockSpec ListLocks KeyLocks KeyLocksProofs NpmLock NpmSpec NpmProofs PnpmLock PnpmSpec PnpmProofs GoLock GoSpec GoProofs MavenLock MavenSpec MavenProofs Requirements RequirementsSpec RequirementsProofs Path OrderSpec.
Local Open Scope list_scope.
Local Open Scope nat_scope.

Lemma nodup_keys_perm {A B} (key : A -> B) (ps qs : list A) : NoDup (map key ps) -> NoDup (map key qs) ->
  (forall p, In p ps -> In (key p) (map key qs)) -> (forall p, In p qs -> In (key p) (map key ps)) -> Permutation (map key ps) (map key qs).
Proof.
  intros N M F G. apply NoDup_Permutation; auto. intros x. split; intros H; apply in_map_iff in H as (p & <- & H); auto.
Qed.
Lemma once_same {A} (key : A -> string) l ps qs : once_per key l ps -> once_per key l qs -> Permutation (map key ps) (map key qs).
Proof. intros [N F C] [N' F' C']. apply nodup_keys_perm; auto. Qed.
Lemma per_key_same (R : string -> Pkg -> Prop) ps qs : per_key R ps -> per_key R qs -> Permutation (map (fun _ => tt) ps) (map (fun _ => tt) qs).
Proof.
  intros (m & P & N & F & C) (m' & P' & N' & F' & C').
  assert (K : Permutation (map fst m) (map fst m')).
  { apply nodup_keys_perm; auto.
    - intros [k p] H. destruct (C' _ _ (F _ _ H)) as (q & Q). exact (in_map fst _ _ Q).
    - intros [k p] H. destruct (C _ _ (F' _ _ H)) as (q & Q). exact (in_map fst _ _ Q). }
  apply (Permutation_map (fun _ => tt)) in P, P', K. rewrite <- P, <- P'. rewrite map_map in *. rewrite map_map in K. rewrite map_map. exact K.
Qed.
Lemma perm_map_inj {A B} (key : A -> B) : forall ps qs, (forall x y, In x ps -> In y qs -> key x = key y -> x = y) -> Permutation (map key ps) (map key qs) -> Permutation ps qs.
Proof.
  induction ps as [|p ps IH]; intros qs J P.
  - apply Permutation_nil in P. destruct qs; [constructor|discriminate].
  - cbn in P. assert (I : In (key p) (map key qs)) by (eapply Permutation_in; [exact P|now left]). apply in_map_iff in I as (q & E & I).
    assert (p = q) as -> by (apply J; [now left|exact I|now symmetry]). apply in_split in I as (a & b & ->).
    apply Permutation_cons_app. apply IH.
    + intros x y X Y. apply J; [now right|]. apply in_app_or in Y as [Y|Y]; apply in_or_app; [now left|right; now right].
    + rewrite map_app in P. cbn in P. apply Permutation_cons_app_inv in P. now rewrite map_app.
Qed.
Lemma same_refl {B} (key : Pkg -> B) r : same_up_to key r r.
Proof. destruct r as [[f|ps]|]; constructor. reflexivity. Qed.
Lemma same_list ps qs : Permutation ps qs -> same_packages (Ok (inr ps)) (Ok (inr qs)).
Proof. intros P. constructor. now rewrite !map_id. Qed.
Lemma same_unit {B} (key : Pkg -> B) r r' : same_up_to key r r' -> same_up_to (fun _ => tt) r r'.
Proof.
  intros []; constructor. assert (E : forall l, map (fun _ : Pkg => tt) l = map (fun _ => tt) (map key l)) by (intros l; now rewrite map_map). rewrite !E. now apply Permutation_map.
Qed.
Lemma same_plain eco r r' : (forall ps p, r = Ok (inr ps) -> In p ps -> exists n v, p = plain_pkg n v eco) -> (forall ps p, r' = Ok (inr ps) -> In p ps -> exists n v, p = plain_pkg n v eco) ->
  plain_result r -> plain_result r' -> same_up_to name_at r r' -> same_packages r r'.
Proof.
  intros F F' V V' S. revert F F' V V'. destruct S as [| |ps qs P]; intros F F' V V'; constructor. rewrite !map_id. apply (perm_map_inj name_at); [|exact P]. intros x y X Y E.
  pose proof (V _ _ eq_refl X) as VX. pose proof (V' _ _ eq_refl Y) as VY. destruct (F _ _ eq_refl X) as (n & v & ->), (F' _ _ eq_refl Y) as (n' & v' & ->). unfold name_at in E. cbn in *. apply at_key in E as [-> ->]; auto.
Qed.
(** both readings of a file *)
Lemma decoded_same {A B} (key : Pkg -> B) files (dec : string -> option A) path k k' : (forall a, same_up_to key (k a) (k' a)) ->
  same_up_to key (decoded files dec path k) (decoded files dec path k').
Proof. intros H. unfold decoded. destruct (read_file files path); [|constructor]. destruct (dec s); [apply H|constructor]. Qed.
Lemma deref_same {A B} (key : Pkg -> B) (p : option A) k k' : (forall a, same_up_to key (k a) (k' a)) -> same_up_to key (deref p k) (deref p k').
Proof. intros H. destruct p; [apply H|constructor]. Qed.

Section TwoOrders.
Variables it it' : Iter.
Hypothesis IT : IterOk it.
Hypothesis IT' : IterOk it'.
Variable files : string -> txt.

Lemma nuget_same path : same_up_to name_at (parse_nuget_lock it files path) (parse_nuget_lock it' files path).
Proof.
  unfold parse_nuget_lock. apply decoded_same. intros p. apply deref_same. intros [v m]. destruct (negb _); constructor.
  eapply once_same; (eapply pick_key; [now apply nuget_pick|apply nuget_all_key]).
Qed.
Lemma nuget_pkgs i path ps p : IterOk i -> parse_nuget_lock i files path = Ok (inr ps) -> In p ps -> exists n v, p = plain_pkg n v "NuGet".
Proof.
  intros I. unfold parse_nuget_lock, decoded. destruct (read_file files path); [|discriminate]. destruct (json_pointer _ _) as [[[z m]|]|]; try discriminate. cbn [deref]. destruct (negb _); [discriminate|]. intros E. injection E as <-. intros H.
  apply (pk_from _ _ (nuget_pick i I _)) in H. apply in_map_iff in H as ([k q] & <- & H). apply in_flat_map in H as (f & _ & H). apply in_map_iff in H as (d & E & _). injection E as <- <-. exists (fst d), (snd d). reflexivity.
Qed.
Lemma pipenv_same path : same_up_to name_at (parse_pipenv_lock it files path) (parse_pipenv_lock it' files path).
Proof.
  unfold parse_pipenv_lock. apply decoded_same. intros p. apply deref_same. intros [a b].
  destruct (pipenv_spec it IT (map_entries a) (map_entries b)) as [[-> E]|(ps & -> & O & E)], (pipenv_spec it' IT' (map_entries a) (map_entries b)) as [[-> E']|(ps' & -> & O' & E')]; try contradiction; constructor.
  eapply once_same; eauto.
Qed.
Lemma pipenv_pkgs i path ps p : IterOk i -> parse_pipenv_lock i files path = Ok (inr ps) -> In p ps -> exists n v, p = plain_pkg n v "PyPI".
Proof.
  intros I. unfold parse_pipenv_lock, decoded. destruct (read_file files path); [|discriminate]. destruct (json_pointer _ _) as [[[a b]|]|]; try discriminate. cbn [deref]. intros E H.
  destruct (pipenv_spec i I (map_entries a) (map_entries b)) as [[X _]|(qs & X & O & _)]; rewrite X in E; [discriminate|]. injection E as <-. eapply pipenv_form, op_from; eauto.
Qed.
Lemma go_same modfile path : same_up_to name_at (parse_go_lock it files modfile path) (parse_go_lock it' files modfile path).
Proof.
  destruct (files path) as [|content fails] eqn:F; [|destruct fails]; try (unfold parse_go_lock, read_file; rewrite F; constructor).
  destruct (modfile path content) as [f|] eqn:M; [|unfold parse_go_lock, read_file; rewrite F, M; constructor].
  destruct (go_lock it IT files modfile path content f F M) as (ps & -> & N & I & A), (go_lock it' IT' files modfile path content f F M) as (qs & -> & N' & I' & A').
  constructor. apply nodup_keys_perm; auto.
  - intros p P. destruct (A' p (I p P)) as (q & Q & <-). now apply in_map.
  - intros p P. destruct (A p (I' p P)) as (q & Q & <-). now apply in_map.
Qed.
Lemma go_pkgs i modfile path ps p : IterOk i -> parse_go_lock i files modfile path = Ok (inr ps) -> In p ps -> exists n v, p = plain_pkg n v "Go".
Proof.
  intros J E H. destruct (files path) as [|content fails] eqn:F; [|destruct fails]; try (unfold parse_go_lock, read_file in E; rewrite F in E; discriminate).
  destruct (modfile path content) as [f|] eqn:M; [|unfold parse_go_lock, read_file in E; rewrite F, M in E; discriminate].
  destruct (go_lock i J files modfile path content f F M) as (qs & E' & N & I & A). rewrite E in E'. injection E' as <-. destruct (I p H) as (? & m & _ & _ & w & _ & ->). exists (mod_path m), w. reflexivity.
Qed.
Lemma maven_same xml path : same_packages (fst (parse_maven_lock it files xml path)) (fst (parse_maven_lock it' files xml path))
  /\ snd (parse_maven_lock it files xml path) = snd (parse_maven_lock it' files xml path).
Proof.
  unfold parse_maven_lock. destruct (read_file files path) as [c|]; [|split; constructor]. destruct (xml c) as [r|]; [|split; constructor]. destruct (dec_pom r) as [f|]; [|split; constructor].
  destruct (maven_loop _ _ _) as [d s]. split; [|reflexivity]. apply same_list. unfold map_to_slice. apply Permutation_map. rewrite <- (IT _ d). apply IT'.
Qed.
Lemma pubspec_same yaml path : same_packages (parse_pubspec_lock it files yaml path) (parse_pubspec_lock it' files yaml path).
Proof.
  unfold parse_pubspec_lock. apply decoded_same. intros [m|]; [|apply same_refl]. apply same_list. unfold pubspec_packages. apply Permutation_map. rewrite <- (IT _ (map_entries m)). apply IT'.
Qed.
Lemma renv_same path : same_packages (parse_renv_lock it files path) (parse_renv_lock it' files path).
Proof.
  unfold parse_renv_lock. apply decoded_same. intros p. apply deref_same. intros m. apply same_list. unfold renv_packages. apply Permutation_flat_map. rewrite <- (IT _ (map_entries m)). apply IT'.
Qed.
Definition bun_all (l : list (string * list json)) : list Pkg :=
  flat_map (fun e => match structure_package_details (snd e) with
                     | Ok (name, version, commit) => if (seqb name "" && seqb version "" && seqb commit "")%bool then [] else [mkPkg name version commit NpmEcosystem NpmEcosystem]
                     | Panic => [] end) l.
Lemma bun_packages_all l : bun_packages l = if existsb (fun e => match snd e with [] => true | _ => false end) l then Panic else Ok (bun_all l).
Proof.
  induction l as [|[k t] l IH]; [reflexivity|]. cbn [bun_packages existsb snd bun_all flat_map]. destruct t as [|j t]; [reflexivity|]. cbn [orb].
  destruct (structure_package_details (j :: t)) as [[[n v] c]|] eqn:S.
  - cbn [rbind]. rewrite IH. destruct (existsb _ l); [reflexivity|]. cbn [rbind]. unfold bun_all. destruct (_ && _ && _)%bool; reflexivity.
  - exfalso. destruct j; try discriminate. cbn in S. destruct (cut_prefix _ _), (cut _ _) as [[]], (cut _ _) as [[]]. discriminate.
Qed.
Lemma existsb_perm {A} (f : A -> bool) l l' : Permutation l l' -> existsb f l = existsb f l'.
Proof. intros P. apply eq_true_iff_eq. rewrite !existsb_exists. split; intros (x & I & F); exists x; (split; [|exact F]); (eapply Permutation_in; [|exact I]); [exact P|now symmetry]. Qed.
Lemma bun_same jsonc path : same_packages (parse_bun_lock it files jsonc path) (parse_bun_lock it' files jsonc path).
Proof.
  unfold parse_bun_lock. apply decoded_same. intros p. apply deref_same. intros m. rewrite !bun_packages_all.
  rewrite <- (existsb_perm _ _ _ (IT _ (map_entries m))), <- (existsb_perm _ _ _ (IT' _ (map_entries m))). destruct (existsb _ _); [constructor|]. apply same_list. unfold bun_all. apply Permutation_flat_map. rewrite <- (IT _ (map_entries m)). apply IT'.
Qed.
(** npm *)
Lemma npm_same url path : same_up_to (fun _ => tt) (parse_npm_lock it files url path) (parse_npm_lock it' files url path).
Proof.
  unfold parse_npm_lock. apply decoded_same. intros p. apply deref_same. intros [z ds [ps|]]; unfold parse_npm; cbn [nl_packages nl_deps].
  - cbn [rbind]. apply (same_unit npm_id). constructor. eapply once_same; (eapply pick_key; [apply built_slice; [assumption|now apply packages_built]|]); intros k q H; apply in_map_iff in H as (d & E & _); injection E as <- <-; reflexivity.
  - destruct (dependencies_ok url it IT (map_entries ds)) as [[-> B]|(m & -> & B & N)], (dependencies_ok url it' IT' (map_entries ds)) as [[-> B']|(m' & -> & B' & N')]; try contradiction; constructor.
    eapply per_key_same; eapply built_per_key; eauto; intros k q; apply entries_iff.
Qed.
Lemma npm_same2 url path j ps : json_file files path j -> npm_doc2 ps j -> same_up_to npm_id (parse_npm_lock it files url path) (parse_npm_lock it' files url path).
Proof.
  intros F D. rewrite !(npm_file2 _ _ _ _ _ _ F D). constructor. eapply once_same; (eapply pick_key; [apply built_slice; [assumption|now apply packages_built]|]); intros k q H; apply in_map_iff in H as (d & E & _); injection E as <- <-; reflexivity.
Qed.
(** pnpm *)
Lemma pnpm_cases nine l : pnpm_loop nine l = Panic \/ pnpm_loop nine l = Ok None \/ exists ps, pnpm_loop nine l = Ok (Some ps).
Proof. destruct (pnpm_loop nine l) as [[ps|]|]; eauto. Qed.
Definition pnpm_ok nine (e : string * PnpmPackage) : Prop := exists n v, extract_pnpm (fst e) nine = Ok (Some (n, v)).
Definition pnpm_one nine (e : string * PnpmPackage) : list Pkg :=
  match extract_pnpm (fst e) nine with
  | Ok (Some (name, version)) =>
      let name := if negb (seqb (pn_name (snd e)) "") then pn_name (snd e) else name in
      let version := if negb (seqb (pn_version (snd e)) "") then pn_version (snd e) else version in
      if (seqb name "" || seqb version "")%bool then [] else [mkPkg name version (pnpm_commit (snd e)) NpmEcosystem NpmEcosystem]
  | _ => []
  end.
Lemma pnpm_loop_ok nine l ps : pnpm_loop nine l = Ok (Some ps) -> Forall (pnpm_ok nine) l /\ ps = flat_map (pnpm_one nine) l.
Proof.
  revert ps. induction l as [|[k d] l IH]; cbn [pnpm_loop]; intros ps E; [injection E as <-; split; constructor|].
  destruct (extract_pnpm k nine) as [[[n v]|]|] eqn:X; cbn [rbind] in E; try discriminate.
  cbn [flat_map]. unfold pnpm_one at 1. cbn [fst snd]. rewrite X. cbv zeta. destruct (_ || _)%bool.
  - destruct (IH ps E) as [F ->]. split; [constructor; [|exact F]; exists n, v; exact X|reflexivity].
  - destruct (pnpm_loop nine l) as [[qs|]|] eqn:L; cbn in E; try discriminate. injection E as <-. destruct (IH qs eq_refl) as [F ->]. split; [constructor; [|exact F]; exists n, v; exact X|reflexivity].
Qed.
Lemma pnpm_loop_all nine l : Forall (pnpm_ok nine) l -> pnpm_loop nine l = Ok (Some (flat_map (pnpm_one nine) l)).
Proof.
  induction l as [|[k d] l IH]; intros F; [reflexivity|]. inversion F as [|? ? (n & v & X) F']; subst. cbn [pnpm_loop fst] in *. rewrite X. cbn [rbind flat_map]. unfold pnpm_one at 1. cbn [fst snd]. rewrite X, IH by exact F'. cbv zeta. destruct (_ || _)%bool; reflexivity.
Qed.
Lemma pnpm_same float yaml path : same_packages (parse_pnpm_lock it files float yaml path) (parse_pnpm_lock it' files float yaml path)
  \/ (parse_pnpm_lock it files float yaml path = Panic /\ parse_pnpm_lock it' files float yaml path = Ok (inl (FParse path)))
  \/ (parse_pnpm_lock it files float yaml path = Ok (inl (FParse path)) /\ parse_pnpm_lock it' files float yaml path = Panic).
Proof.
  unfold parse_pnpm_lock, decoded. destruct (read_file files path) as [c|]; [|left; constructor]. match goal with |- context [match ?d with Some _ => _ | None => _ end] => destruct d as [[v l]|] end; [|left; constructor].
  unfold parse_pnpm. cbn [pl_version pl_packages]. set (nine := Qeq_bool v 9).
  destruct (pnpm_cases nine (it _ l)) as [E|[E|(ps & E)]], (pnpm_cases nine (it' _ l)) as [E'|[E'|(qs & E')]]; rewrite ?E, ?E'; cbn; try (left; constructor; fail); auto.
  1,2: exfalso; apply pnpm_loop_ok in E' as [F _]; assert (G : Forall (pnpm_ok nine) (it _ l)) by (eapply Permutation_Forall; [|exact F]; rewrite <- (IT' _ l); apply IT); rewrite (pnpm_loop_all _ _ G) in E; discriminate.
  1,2: exfalso; apply pnpm_loop_ok in E as [F _]; assert (G : Forall (pnpm_ok nine) (it' _ l)) by (eapply Permutation_Forall; [|exact F]; rewrite <- (IT _ l); apply IT'); rewrite (pnpm_loop_all _ _ G) in E'; discriminate.
  left. apply same_list. apply pnpm_loop_ok in E as [_ ->], E' as [_ ->]. apply Permutation_flat_map. rewrite <- (IT _ l). apply IT'.
Qed.
(** requirements.txt: what is read, and the errors, are the same *)
Definition req_alike {A} (o o' : option ((req_err + A) * list string)) : Prop :=
  match o, o' with
  | None, None => True
  | Some (inl e, s), Some (inl e', s') => e = e' /\ s = s'
  | Some (inr _, s), Some (inr _, s') => s = s'
  | _, _ => False
  end.
Lemma req_lines_alike rec rec' path lines : (forall p s, req_alike (rec p s) (rec' p s)) ->
  forall m m' s, req_alike (req_lines rec path lines m s) (req_lines rec' path lines m' s).
Proof.
  intros R. induction lines as [|l ls IH]; intros m m' s; [reflexivity|]. cbn [req_lines]. destruct (cut_prefix _ _) as [ar []].
  - destruct (mem _ _); [apply IH|]. specialize (R (path_join [path_dir path; ar]) (set_add (path_join [path_dir path; ar]) s)). destruct (rec _ _) as [[[e|d] t]|], (rec' _ _) as [[[e'|d'] t']|]; cbn in R; try contradiction.
    + destruct R as [-> ->]. split; reflexivity.
    + subst t'. apply IH.
    + exact I.
  - destruct (is_not_requirement_line _); apply IH.
Qed.
Lemma parse_req_alike depth : forall path s, req_alike (parse_req it files depth path s) (parse_req it' files depth path s).
Proof.
  induction depth as [|d IH]; intros path s; [exact I|]. cbn [parse_req]. destruct (files path) as [|c f]; [split; reflexivity|]. destruct (scan c) as [ts tl].
  pose proof (req_lines_alike _ _ path (logical ts) IH [] [] s) as H. destruct (req_lines _ _ _ _ _) as [[[e|m] t]|], (req_lines (parse_req it' files d) _ _ _ _) as [[[e'|m'] t']|]; cbn in H; try contradiction.
  - destruct H as [-> ->]. split; reflexivity.
  - subst t'. destruct (_ || _)%bool; [split; reflexivity|reflexivity].
  - exact I.
Qed.
End TwoOrders.
Lemma same_no_clash key r r' : no_clash key r r' -> same_up_to key r r' -> same_packages r r'.
Proof.
  intros N S. revert N. destruct S as [| |ps qs P]; intros N; constructor. rewrite !map_id. apply (perm_map_inj key); [|exact P]. intros x y X Y. now apply (N ps qs).
Qed.
Lemma requirements_same it it' files depth path : IterOk it -> IterOk it' ->
  match parse_requirements_txt it files depth path, parse_requirements_txt it' files depth path with
  | Some (inr ps), Some (inr qs) => Permutation (map name_at ps) (map name_at qs)
  | r, r' => r = r'
  end.
Proof.
  intros IT IT'. pose proof (parse_req_alike it it' files depth path []) as A. destruct (parse_requirements_txt it files depth path) as [[e|ps]|] eqn:E, (parse_requirements_txt it' files depth path) as [[e'|qs]|] eqn:E';
    try (unfold parse_requirements_txt in E, E'; destruct (parse_req it files depth path []) as [[[x|x] t]|], (parse_req it' files depth path []) as [[[x'|x'] t']|]; cbn in *; try contradiction; try discriminate; destruct A; congruence).
  destruct (parse_ok it IT files depth path ps E) as (_ & N & F & C), (parse_ok it' IT' files depth path qs E') as (_ & N' & F' & C').
  apply nodup_keys_perm; auto.
  - intros p P. destruct (F p P) as (q & R & Q). exact (C' _ _ R Q).
  - intros p P. destruct (F' p P) as (q & R & Q). exact (C _ _ R Q).
Qed.
