From Verif Require Import GoStr GoStrFacts Types Json MemDB MemDBProofs GoMap Scan Ecosystems LockIO KeyLocks PkgMapSpec PkgMap Built LockSpec ListLocks LockJson.

Lemma fold_entries {A B} (f : A -> string) (g : A -> B) l : forall m,
  fold_left (fun m x => map_set (f x) (g x) m) l m = fold_left (fun m '(k, v) => map_set k v m) (map (fun x => (f x, g x)) l) m.
Proof. induction l as [|x l IH]; intros m; cbn; auto. Qed.
Section WithIter.
Variable it : Iter.
Hypothesis IT : IterOk it.
Lemma copy_built dst src es es' : built dst es -> built src es' -> built (copy_map it dst src) (es ++ es').
Proof.
  intros B B'. unfold copy_map. eapply built_trans; [|exact B']. eapply built_perm; [apply built_fold; exact B|].
  apply Permutation_app_head. symmetry. apply IT.
Qed.
Lemma merge_built m1 m2 es es' : built m1 es -> built m2 es' -> built (merge_pkg_details it m1 m2) (es ++ es').
Proof. intros B B'. unfold merge_pkg_details. apply copy_built; [|exact B']. exact (copy_built [] m1 [] es built_nil B). Qed.

(** ** NuGet *)
Definition nuget_entries (deps : list (string * string)) : list (string * Pkg) :=
  map (fun d => (fst d +s+ "@" +s+ snd d, plain_pkg (fst d) (snd d) "NuGet")) deps.
Lemma nuget_deps_built deps : built (parse_nuget_dependencies it deps) (nuget_entries deps).
Proof.
  unfold parse_nuget_dependencies.
  replace (fold_left _ (it _ deps) []) with (fold_left (fun m '(k, v) => map_set k v m) (nuget_entries (it _ deps)) []).
  - eapply built_perm; [apply (built_fold _ [] []), built_nil|]. apply Permutation_map. symmetry. apply IT.
  - unfold nuget_entries. generalize (@nil (string * Pkg)). induction (it _ deps) as [|[n r] l IH]; intros m; cbn; auto.
Qed.
Definition nuget_all (lockfile : list (string * NuGetDeps)) : list (string * Pkg) := flat_map (fun f => nuget_entries (map_entries (snd f))) lockfile.
Lemma nuget_loop l : forall m es, built m es ->
  built (fold_left (fun details '((_, deps) : string * NuGetDeps) => merge_pkg_details it details (parse_nuget_dependencies it (map_entries deps))) l m) (es ++ nuget_all l).
Proof.
  induction l as [|[f d] l IH]; intros m es B; cbn [fold_left nuget_all flat_map]; [now rewrite app_nil_r|].
  rewrite app_assoc. apply IH. apply merge_built; [exact B|apply nuget_deps_built].
Qed.
Lemma nuget_all_perm l l' : Permutation l l' -> Permutation (nuget_all l) (nuget_all l').
Proof. unfold nuget_all. apply Permutation_flat_map. Qed.
Lemma nuget_pick lockfile : pick (nuget_all lockfile) (parse_nuget it lockfile).
Proof.
  unfold parse_nuget. apply built_slice; [exact IT|]. eapply built_perm; [apply (nuget_loop _ [] []), built_nil|].
  cbn [app]. apply nuget_all_perm. symmetry. apply IT.
Qed.
Definition somes (m : list (string * list (string * string))) : list (string * NuGetDeps) := map (fun f => (fst f, Some (snd f))) m.
Lemma nuget_all_listed m : map snd (nuget_all (somes m)) = nuget_listed m.
Proof.
  unfold nuget_all, nuget_listed, nuget_entries, somes. induction m as [|[f d] l IH]; cbn; [reflexivity|]. rewrite map_app. f_equal; [now rewrite map_map|exact IH].
Qed.
Lemma nuget_all_key lockfile k p : In (k, p) (nuget_all lockfile) -> k = name_at p.
Proof. intros H. apply in_flat_map in H as (f & _ & H). apply in_map_iff in H as (d & E & _). injection E as <- <-. reflexivity. Qed.
Lemma nuget_once m : once_per name_at (nuget_listed m) (parse_nuget it (somes m)).
Proof. rewrite <- nuget_all_listed. apply pick_key; [apply nuget_pick|apply nuget_all_key]. Qed.
Lemma plain_key_inj eco l : (forall p, In p l -> exists n v, p = plain_pkg n v eco) -> (forall p, In p l -> has_char "@" (p_version p) = false) ->
  forall x y, In x l -> In y l -> name_at x = name_at y -> x = y.
Proof.
  intros F V x y X Y E. pose proof (V x X) as VX. pose proof (V y Y) as VY. destruct (F x X) as (n & v & ->), (F y Y) as (n' & v' & ->).
  unfold name_at in E. cbn in *. apply at_key in E as [-> ->]; auto.
Qed.
Lemma nuget_form m p : In p (nuget_listed m) -> exists n v, p = plain_pkg n v "NuGet".
Proof. intros H. apply in_flat_map in H as (f & _ & H). apply in_map_iff in H as (d & <- & _). eauto. Qed.
Lemma nuget_file files path j m : json_file files path j -> nuget_doc [("version", JNum "1")] m j ->
  parse_nuget_lock it files path = Ok (inr (parse_nuget it (somes m))).
Proof.
  intros F D. unfold parse_nuget_lock. destruct D as (d & O & M) eqn:Q. erewrite decoded_json; [|exact F|exact O|].
  2:{ eapply nuget_doc_dec; [exact D|]. right. eexists. split; reflexivity. }
  reflexivity.
Qed.
Lemma nuget_version files path j m ver : json_file files path j -> nuget_doc ver m j ->
  (ver = [] \/ exists n, ver = [("version", JNum (dec_of_nat n))] /\ n <> 1 /\ (Z.of_nat n <= 9223372036854775807)%Z) ->
  parse_nuget_lock it files path = Ok (inl (FVersion path)).
Proof.
  intros F D V. assert (exists z, z <> 1%Z /\ dec_nuget j = Some (z, Some (somes m))) as (z & Z & E).
  { destruct V as [->|(n & -> & N & L)].
    - exists 0%Z. split; [discriminate|]. eapply nuget_doc_dec; [exact D|]. now left.
    - exists (Z.of_nat n). split; [lia|]. eapply nuget_doc_dec; [exact D|]. right. eexists. split; [reflexivity|]. now apply dec_int_nat. }
  destruct D as (d & O & M). unfold parse_nuget_lock. erewrite decoded_json; [|exact F|exact O|exact E]. cbn [deref].
  destruct (Z.eqb_spec z 1); [contradiction|]. reflexivity.
Qed.
Lemma nuget_lock files path j m : json_file files path j -> nuget_doc [("version", JNum "1")] m j ->
  exists ps, parse_nuget_lock it files path = Ok (inr ps) /\ once_per name_at (nuget_listed m) ps.
Proof. intros F D. eexists. split; [eapply nuget_file; eauto|apply nuget_once]. Qed.
Lemma nuget_lock_exact files path j m : json_file files path j -> nuget_doc [("version", JNum "1")] m j ->
  (forall p, In p (nuget_listed m) -> has_char "@" (p_version p) = false) ->
  exists ps, parse_nuget_lock it files path = Ok (inr ps) /\ NoDup ps /\ forall p, In p ps <-> In p (nuget_listed m).
Proof.
  intros F D V. eexists. split; [eapply nuget_file; eauto|]. apply (once_exact name_at); [apply nuget_once|]. apply (plain_key_inj "NuGet"); [apply nuget_form|exact V].
Qed.

(** ** Pipenv *)
Definition pipenv_entries (l : list (string * string)) : list (string * Pkg) :=
  flat_map (fun d => match snd d with String _ (String _ v) => [(fst d +s+ "@" +s+ v, plain_pkg (fst d) v "PyPI")] | _ => [] end) l.
Lemma pipenv_loop_panic l : fold_left (fun acc '((name, v) : string * string) =>
    rbind acc (fun m : list (string * Pkg) => if seqb v "" then Ok m
      else rbind (slice2 v) (fun version => Ok (map_set (name +s+ "@" +s+ version) (mkPkg name version "" PipEcosystem PipEcosystem) m)))) l Panic = Panic.
Proof. induction l as [|[n v] l IH]; cbn; auto. Qed.
Lemma pipenv_loop_spec l : forall m es, built m es ->
  (pipenv_loop l m = Panic /\ Exists short_pin l) \/ (exists m', pipenv_loop l m = Ok m' /\ built m' (es ++ pipenv_entries l) /\ ~ Exists short_pin l).
Proof.
  induction l as [|[n v] l IH]; intros m es B; unfold pipenv_loop; cbn [fold_left].
  - right. exists m. cbn. rewrite app_nil_r. split; [reflexivity|]. split; [exact B|]. intros H. inversion H.
  - destruct v as [|a [|b v]]; cbn [seqb String.eqb rbind slice2].
    + destruct (IH m es B) as [[P E]|(m' & P & B' & E)]; [left|right].
      * split; [exact P|now right].
      * exists m'. split; [exact P|]. split; [exact B'|]. intros H. inversion H as [x y (c & C)|]; subst; [discriminate|contradiction].
    + left. split; [apply pipenv_loop_panic|]. left. exists a. reflexivity.
    + destruct (IH _ _ (built_set m es (n +s+ "@" +s+ v) (plain_pkg n v "PyPI") B)) as [[P E]|(m' & P & B' & E)]; [left|right].
      * split; [exact P|now right].
      * exists m'. split; [exact P|]. split; [rewrite <- app_assoc in B'; exact B'|]. intros H. inversion H as [x y (c & C)|]; subst; [discriminate|contradiction].
Qed.
Lemma Exists_perm {A} (P : A -> Prop) l l' : Permutation l l' -> Exists P l -> Exists P l'.
Proof. intros PM H. apply Exists_exists in H as (x & I & X). apply Exists_exists. exists x. split; [eapply Permutation_in; eauto|exact X]. Qed.
Lemma pipenv_entries_perm l l' : Permutation l l' -> Permutation (pipenv_entries l) (pipenv_entries l').
Proof. apply Permutation_flat_map. Qed.
Lemma pipenv_listed_entries l : map snd (pipenv_entries l) = pipenv_listed l.
Proof. unfold pipenv_entries, pipenv_listed. induction l as [|[n v] l IH]; cbn; [reflexivity|]. rewrite map_app. f_equal; [destruct v as [|a [|b v]]; reflexivity|exact IH]. Qed.
Lemma pipenv_spec a b :
  (parse_pipenv it a b = Panic /\ Exists short_pin (a ++ b))
  \/ (exists ps, parse_pipenv it a b = Ok (inr ps) /\ once_per name_at (pipenv_listed (a ++ b)) ps /\ ~ Exists short_pin (a ++ b)).
Proof.
  unfold parse_pipenv. destruct (pipenv_loop_spec (it _ a) [] [] built_nil) as [[-> E]|(m & -> & B & E)]; cbn [rbind].
  - left. split; [reflexivity|]. apply Exists_app. left. eapply Exists_perm; [symmetry; apply IT|exact E].
  - destruct (pipenv_loop_spec (it _ b) m _ B) as [[-> E']|(m' & -> & B' & E')]; cbn [rbind]; [left|right].
    + split; [reflexivity|]. apply Exists_app. right. eapply Exists_perm; [symmetry; apply IT|exact E'].
    + eexists. split; [reflexivity|]. split.
      * rewrite <- pipenv_listed_entries. apply pick_key.
        -- apply built_slice; [exact IT|]. eapply built_perm; [exact B'|]. cbn [app]. unfold pipenv_entries. rewrite flat_map_app.
           apply Permutation_app; apply pipenv_entries_perm; symmetry; apply IT.
        -- intros k p H. apply in_flat_map in H as ([n v] & _ & H). destruct v as [|c [|d v]]; cbn in H; try contradiction. destruct H as [H|[]]. injection H as <- <-. reflexivity.
      * intros H. apply Exists_app in H as [H|H]; [apply E|apply E']; (eapply Exists_perm; [apply IT|exact H]).
Qed.
Lemma pipenv_form l p : In p (pipenv_listed l) -> exists n v, p = plain_pkg n v "PyPI".
Proof. intros H. apply in_flat_map in H as ([n v] & _ & H). destruct v as [|c [|d v]]; cbn in H; try contradiction. destruct H as [<-|[]]. eauto. Qed.
Lemma pipenv_exact a b ps : parse_pipenv it a b = Ok (inr ps) -> (forall p, In p (pipenv_listed (a ++ b)) -> has_char "@" (p_version p) = false) ->
  NoDup ps /\ forall p, In p ps <-> In p (pipenv_listed (a ++ b)).
Proof.
  intros H V. destruct (pipenv_spec a b) as [[P _]|(ps' & P & O & _)]; rewrite P in H; [discriminate|]. injection H as ->.
  apply (once_exact name_at); [exact O|]. apply (plain_key_inj "PyPI"); [apply pipenv_form|exact V].
Qed.
Lemma pipenv_file files path j a b : json_file files path j -> pipenv_doc a b j -> parse_pipenv_lock it files path = parse_pipenv it a b.
Proof.
  intros F D. pose proof (pipenv_doc_dec _ _ _ D) as E. destruct D as (x & y & O & _). unfold parse_pipenv_lock. erewrite decoded_json; [|exact F|exact O|exact E]. reflexivity.
Qed.
Lemma pipenv_lock files path j a b : json_file files path j -> pipenv_doc a b j ->
  (Exists short_pin (a ++ b) /\ parse_pipenv_lock it files path = Panic)
  \/ (~ Exists short_pin (a ++ b) /\ exists ps, parse_pipenv_lock it files path = Ok (inr ps) /\ once_per name_at (pipenv_listed (a ++ b)) ps).
Proof. intros F D. rewrite (pipenv_file _ _ _ _ _ F D). destruct (pipenv_spec a b) as [[P E]|(ps & P & O & E)]; [left|right]; eauto. Qed.
Lemma pipenv_lock_exact files path j a b : json_file files path j -> pipenv_doc a b j -> ~ Exists short_pin (a ++ b) ->
  (forall p, In p (pipenv_listed (a ++ b)) -> has_char "@" (p_version p) = false) ->
  exists ps, parse_pipenv_lock it files path = Ok (inr ps) /\ NoDup ps /\ forall p, In p ps <-> In p (pipenv_listed (a ++ b)).
Proof.
  intros F D S V. rewrite (pipenv_file _ _ _ _ _ F D). destruct (pipenv_spec a b) as [[P E]|(ps & P & O & E)]; [contradiction|].
  exists ps. split; [exact P|]. now apply (pipenv_exact a b).
Qed.
End WithIter.

(** ** bun *)
Lemma cut_at_name name spec : npm_name name ->
  (let '(str, sc) := cut_prefix (name +s+ "@" +s+ spec) "@" in let '(n, v, _) := cut str "@" in (if sc then "@" +s+ n else n, v)) = (name, spec).
Proof.
  intros [NE [N|(r & -> & N)]]; unfold cut_prefix.
  - destruct name as [|c name]; [congruence|]. cbn [append strip_prefix]. destruct (Ascii.eqb_spec "@" c) as [<-|C]; [discriminate|].
    change (String c (name +s+ String "@" spec)) with (String c name +s+ String "@" spec). rewrite cut_char_found by exact N. reflexivity.
  - cbn [append strip_prefix]. cbn. rewrite cut_char_found by exact N. reflexivity.
Qed.
Lemma bun_source_cut spec v c : bun_source spec v c ->
  (let '(version, commit, _) := cut spec "#" in let version := if negb (seqb commit "") then "" else version in
   (if has_prefix version "file:" then "" else version, commit)) = (v, c).
Proof.
  intros [H N|f -> H|a d -> H D].
  - rewrite cut_char_absent by exact H. cbn. assert (has_prefix spec "file:" = false) as -> by (apply has_prefix_false; exact N). reflexivity.
  - rewrite cut_char_absent by (rewrite has_char_app; exact H). cbn [seqb String.eqb negb]. now rewrite has_prefix_app.
  - change ("#" +s+ d) with (String "#" d). rewrite cut_char_found by exact H. destruct (seqb_spec d ""); [congruence|]. reflexivity.
Qed.
Lemma structure_spec t p : bun_entry t p ->
  structure_package_details t = Ok (match p with Some q => (p_name q, p_version q, p_commit q) | None => ("", "", "") end).
Proof.
  intros [name spec v c rest N S|x rest X].
  - unfold structure_package_details. pose proof (cut_at_name name spec N) as A. destruct (cut_prefix _ "@") as [str sc]. destruct (cut str "@") as [[n w] o].
    injection A as A1 A2. subst w. pose proof (bun_source_cut spec v c S) as B. destruct (cut spec "#") as [[ver com] o']. cbv zeta in *. injection B as B1 B2. subst com.
    cbn [p_name p_version p_commit]. change ("@" +s+ n) with (String "@" n). now rewrite A1, B1.
  - unfold structure_package_details. destruct x; try reflexivity. destruct (X s eq_refl).
Qed.
Definition opt_list {A} (o : option A) : list A := match o with Some a => [a] | None => [] end.
Lemma bun_packages_spec l es : Forall2 (fun d p => bun_entry (snd d) p) l es -> bun_packages l = Ok (flat_map opt_list es).
Proof.
  induction 1 as [|[k t] p l es E F IH]; [reflexivity|]. cbn [bun_packages snd] in *. rewrite (structure_spec _ _ E), IH. cbn [rbind flat_map].
  destruct E as [name spec v c rest [NE N] S|x rest X]; [|reflexivity]. cbn [p_name p_version p_commit]. destruct (seqb_spec name ""); [congruence|]. reflexivity.
Qed.
Lemma structure_panic t : structure_package_details t = Panic <-> t = [].
Proof.
  destruct t as [|x t]; [split; reflexivity|]. split; [|discriminate]. unfold structure_package_details. destruct x; try discriminate.
  destruct (cut_prefix s "@") as [str sc], (cut str "@") as [[n w] o], (cut w "#") as [[ver com] o']. discriminate.
Qed.
Lemma bun_panic l : bun_packages l = Panic <-> Exists (fun d => snd d = []) l.
Proof.
  induction l as [|[k t] l IH]; cbn [bun_packages]; [split; [discriminate|intros H; inversion H]|].
  rewrite Exists_cons. cbn [snd]. rewrite <- structure_panic, <- IH. destruct (structure_package_details t) as [[[n v] c]|]; cbn [rbind]; [|tauto].
  destruct (bun_packages l); cbn [rbind]; [split; [discriminate|intros [H|H]; discriminate]|tauto].
Qed.
Lemma Forall2_perm_l {A B} (R : A -> B -> Prop) l l' : Permutation l l' -> forall es, Forall2 R l es -> exists es', Forall2 R l' es' /\ Permutation es es'.
Proof.
  induction 1 as [|x l l' P IH|x y l|l l' l'' P1 IH1 P2 IH2]; intros es F.
  - inversion F; subst. exists []. auto.
  - inversion F as [|? e ? es' R1 F']; subst. destruct (IH _ F') as (es2 & F2 & P2). exists (e :: es2). split; [now constructor|now constructor].
  - inversion F as [|? e ? es' R1 F']; subst. inversion F' as [|? e' ? es'' R2 F'']; subst. exists (e' :: e :: es''). split; [repeat constructor; auto|constructor].
  - destruct (IH1 _ F) as (es1 & F1 & Q1). destruct (IH2 _ F1) as (es2 & F2 & Q2). exists es2. split; [exact F2|eapply Permutation_trans; eauto].
Qed.
Lemma bun_spec it l es : IterOk it -> Forall2 (fun d p => bun_entry (snd d) p) l es ->
  exists ps, bun_packages (it _ l) = Ok ps /\ Permutation (flat_map opt_list es) ps.
Proof.
  intros IT F. destruct (Forall2_perm_l _ _ _ (IT _ l) _ F) as (es' & F' & P). exists (flat_map opt_list es'). split; [now apply bun_packages_spec|].
  now apply Permutation_flat_map.
Qed.
Lemma bun_file it files jsonc path content j m : files path = Text content false -> parse (jsonc content) = Some j -> bun_doc m j ->
  parse_bun_lock it files jsonc path = rbind (bun_packages (it _ m)) packages_of.
Proof.
  intros F P D. pose proof (bun_doc_dec _ _ D) as E. destruct D as (v & x & _ & (l & O & _) & _). unfold parse_bun_lock, decoded, read_file.
  now rewrite F, (pointer_obj _ _ _ _ _ P O E).
Qed.
Lemma bun_lock it files jsonc path content j m es : IterOk it -> files path = Text content false -> parse (jsonc content) = Some j -> bun_doc m j ->
  Forall2 (fun d p => bun_entry (snd d) p) m es ->
  exists ps, parse_bun_lock it files jsonc path = Ok (inr ps) /\ Permutation (flat_map opt_list es) ps.
Proof.
  intros IT F P D E. rewrite (bun_file _ _ _ _ _ _ _ F P D). destruct (bun_spec it m es IT E) as (ps & -> & PM). exists ps. split; [reflexivity|exact PM].
Qed.
Lemma bun_lock_panic it files jsonc path content j m : IterOk it -> files path = Text content false -> parse (jsonc content) = Some j -> bun_doc m j ->
  (parse_bun_lock it files jsonc path = Panic <-> exists k, In (k, []) m).
Proof.
  intros IT F P D. rewrite (bun_file _ _ _ _ _ _ _ F P D). transitivity (bun_packages (it _ m) = Panic).
  - destruct (bun_packages (it _ m)); cbn; unfold packages_of; split; congruence.
  - rewrite bun_panic, Exists_exists. split.
    + intros ([k t] & I & E). cbn in E. subst. exists k. eapply Permutation_in; [symmetry; apply IT|exact I].
    + intros (k & I). exists (k, []). split; [|reflexivity]. eapply Permutation_in; [apply IT|exact I].
Qed.
