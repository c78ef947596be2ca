From Verif Require Import GoStr GoStrFacts Types Path PathFacts Json JsonDec MemDB MemDBProofs GoMap Scan Ecosystems PkgMapSpec PkgMap Built LockIO ListLocks KeyLocks Commit CommitSpec CommitProofs LockSpec LockJson KeyLocksProofs NpmLock NpmSpec.

Lemma NpmDep_nested (P : NpmDep -> Prop) : (forall v, P (mkNpmDep v None)) -> (forall v l, Forall (fun e => P (snd e)) l -> P (mkNpmDep v (Some l))) -> forall d, P d.
Proof.
  intros N S. fix IH 1. intros [v [l|]]; [|apply N]. apply S. induction l as [|[n d] l IHl]; constructor; [apply IH|exact IHl].
Qed.

(** ** v1 *)
Fixpoint deps_below (d : NpmDep) : list (string * string) :=
  let 'mkNpmDep _ l := d in
  match l with None => [] | Some l => flat_map (fun e => deps_below (snd e) ++ [(fst e, nd_version (snd e))]) l end.
Definition all_deps (l : list (string * NpmDep)) : list (string * string) := flat_map (fun e => deps_below (snd e) ++ [(fst e, nd_version (snd e))]) l.
Lemma deps_in_dep l : (forall e n v, In e l -> In (n, v) (deps_below (snd e)) <-> exists l', nd_deps (snd e) = Some l' /\ dep_in l' n v) ->
  forall n v, In (n, v) (all_deps l) <-> dep_in l n v.
Proof.
  intros H n v. unfold all_deps. rewrite in_flat_map. split.
  - intros (e & E & I). apply in_app_or in I as [I|[I|[]]].
    + apply H in I as (l' & Q & I); [|exact E]. destruct e as [m [w ds]]. cbn in Q. subst ds. eapply di_below; eauto.
    + destruct e as [m [w ds]]. cbn in I. injection I as <- <-. eapply di_here; eauto.
  - intros I. inversion I as [l0 n0 v0 ds E|l0 n0 v0 l' n' v' E B]; subst.
    + exists (n, mkNpmDep v ds). split; [exact E|]. apply in_or_app. right. now left.
    + exists (n0, mkNpmDep v0 (Some l')). split; [exact E|]. apply in_or_app. left. apply (H _ _ _ E). exists l'. auto.
Qed.
Lemma below_iff d : forall n v, In (n, v) (deps_below d) <-> exists l', nd_deps d = Some l' /\ dep_in l' n v.
Proof.
  induction d as [w|w l F] using NpmDep_nested; intros n v; cbn [deps_below nd_deps].
  - split; [intros []|intros (l' & E & _); discriminate].
  - change (In (n, v) (all_deps l) <-> exists l', Some l = Some l' /\ dep_in l' n v). rewrite (deps_in_dep l); [|].
    + split; [eauto|]. intros (l' & E & H). injection E as <-. exact H.
    + intros e n' v' I. rewrite Forall_forall in F. now apply F.
Qed.
Lemma all_deps_iff l n v : In (n, v) (all_deps l) <-> dep_in l n v.
Proof. apply deps_in_dep. intros e n' v' _. apply below_iff. Qed.

Section WithUrl.
Variable url : string -> option Url.
Notation entry := (npm_entry url).
Definition bad (d : string * string) : Prop := entry (fst d) (snd d) = Panic.
Definition entries (ds : list (string * string)) : list (string * Pkg) :=
  flat_map (fun d => match entry (fst d) (snd d) with Ok e => [e] | Panic => [] end) ds.
(** a result for these dependencies *)
Definition result_ok (r : res (list (string * Pkg))) (ds : list (string * string)) : Prop :=
  (r = Panic /\ Exists bad ds) \/ (exists m, r = Ok m /\ built m (entries ds) /\ ~ Exists bad ds).
Lemma result_perm r ds ds' : Permutation ds ds' -> result_ok r ds -> result_ok r ds'.
Proof.
  intros P [[E B]|(m & E & B & N)]; [left; split; [exact E|eapply Exists_perm; eauto]|]. right. exists m. split; [exact E|]. split.
  - eapply built_perm; [exact B|]. now apply Permutation_flat_map.
  - intros X. apply N. eapply Exists_perm; [symmetry; exact P|exact X].
Qed.
Variable it : Iter.
Hypothesis IT : IterOk it.
Definition element (e : string * (string * option (res (list (string * Pkg))))) (ds : list (string * string)) : Prop :=
  exists name v nested q, e = (name, (v, nested)) /\ ds = q ++ [(name, v)] /\ (nested = None /\ q = [] \/ exists r, nested = Some r /\ result_ok r q).
Definition loop_step := fun acc '((name, (v, nested)) : string * (string * option (res (list (string * Pkg))))) =>
    rbind acc (fun details =>
    rbind (match nested with None => Ok details | Some r => rbind r (fun m => Ok (merge_pkg_details it details m)) end) (fun details =>
    rbind (entry name v) (fun '(k, p) => Ok (map_set k p details)))).
Lemma loop_panic l : fold_left loop_step l Panic = Panic.
Proof. induction l as [|[n [v o]] l IH]; cbn; auto. Qed.
Lemma loop_from l dss : Forall2 element l dss -> forall m es, built m es ->
  (fold_left loop_step l (Ok m) = Panic /\ Exists bad (concat dss))
  \/ (exists m', fold_left loop_step l (Ok m) = Ok m' /\ built m' (es ++ entries (concat dss)) /\ ~ Exists bad (concat dss)).
Proof.
  induction 1 as [|e ds l dss (name & v & nested & q & -> & -> & Q) F IH]; intros m es B.
  { right. exists m. cbn. rewrite app_nil_r. split; [reflexivity|]. split; [exact B|]. intros X. inversion X. }
  cbn [fold_left concat]. cbn [loop_step rbind].
  assert (N : (exists r, nested = Some r /\ r = Panic /\ Exists bad q) \/ exists m1, match nested with None => Ok m | Some r => rbind r (fun m0 => Ok (merge_pkg_details it m m0)) end = Ok m1 /\ built m1 (es ++ entries q) /\ ~ Exists bad q).
  { destruct Q as [[-> ->]|(r & -> & [[-> X]|(m0 & -> & B0 & X)])].
    - right. exists m. cbn. rewrite app_nil_r. split; [reflexivity|]. split; [exact B|]. intros X; inversion X.
    - left. eauto.
    - right. cbn [rbind]. eexists. split; [reflexivity|]. split; [|exact X]. now apply merge_built. }
  destruct N as [(r & -> & -> & X)|(m1 & -> & B1 & X)]; cbn [rbind].
  { left. split; [apply loop_panic|]. rewrite !Exists_app. auto. }
  destruct (entry name v) as [[k p]|] eqn:E; cbn [rbind].
  - assert (B2 : built (map_set k p m1) (es ++ entries (q ++ [(name, v)]))).
    { unfold entries. rewrite flat_map_app. cbn [flat_map fst snd]. rewrite E, app_nil_r, app_assoc. now apply built_set. }
    destruct (IH _ _ B2) as [[P Y]|(m' & P & B' & Y)]; [left|right].
    + split; [exact P|]. rewrite Exists_app. auto.
    + exists m'. split; [exact P|]. split.
      * unfold entries in *. rewrite flat_map_app, app_assoc. exact B'.
      * rewrite !Exists_app. intros [[Z|Z]|Z]; [contradiction| |contradiction]. inversion Z as [? ? Z1|? ? Z1]; subst; [unfold bad in Z1; cbn in Z1; congruence|inversion Z1].
  - left. split; [apply loop_panic|]. rewrite !Exists_app. left. right. left. exact E.
Qed.
Lemma loop_ok l dss : Forall2 element l dss -> result_ok (npm_loop it url l) (concat dss).
Proof. intros F. exact (loop_from l dss F [] [] built_nil). Qed.
Lemma nested_ok_list l : Forall (fun e => element (fst e, npm_nested it url (snd e)) (deps_below (snd e) ++ [(fst e, nd_version (snd e))])) l ->
  result_ok (npm_loop it url (it _ (map (fun nd => (fst nd, npm_nested it url (snd nd))) l))) (all_deps l).
Proof.
  intros F. set (xs := map (fun nd => (fst nd, npm_nested it url (snd nd))) l).
  assert (F2 : Forall2 element xs (map (fun e => deps_below (snd e) ++ [(fst e, nd_version (snd e))]) l)) by (subst xs; induction F; cbn; constructor; auto).
  destruct (Forall2_perm_l _ _ _ (IT _ xs) _ F2) as (dss & F3 & P). eapply result_perm; [|apply loop_ok; exact F3].
  unfold all_deps. rewrite flat_map_concat_map. clear -P. symmetry. induction P; cbn; [constructor|now apply Permutation_app_head| |etransitivity; eauto].
  rewrite !app_assoc. apply Permutation_app_tail, Permutation_app_comm.
Qed.
Lemma nested_element n d : element (n, npm_nested it url d) (deps_below d ++ [(n, nd_version d)]).
Proof.
  revert n. induction d as [v|v l F] using NpmDep_nested; intros n.
  - exists n, v, None, []. repeat split. now left.
  - do 4 eexists. split; [reflexivity|]. split; [reflexivity|]. right. eexists. split; [reflexivity|]. apply nested_ok_list.
    eapply Forall_impl; [|exact F]. intros e E. apply E.
Qed.
Lemma dependencies_ok l : result_ok (parse_npm_dependencies it url l) (all_deps l).
Proof. apply nested_ok_list. apply Forall_forall. intros e _. apply nested_element. Qed.

(** entries and packages *)
Lemma entry_bad n v : entry n v = Panic <-> bad_alias v.
Proof.
  unfold npm_entry. destruct (has_prefix v "file:") eqn:F.
  - split; [discriminate|]. intros (t & -> & _). discriminate.
  - destruct (has_prefix v "npm:") eqn:P.
    + apply has_prefix_iff in P as (t & ->). destruct (cut_last "@" ("npm:" +s+ t)) as [[b a]|] eqn:C; cbn [rbind].
      * split; [destruct (seqb _ ""); discriminate|]. intros (t' & E & H). apply sapp_inj_l in E. subst t'. apply cut_last_some in C as [C _].
        assert (X : has_char "@" ("npm:" +s+ t) = false) by (rewrite has_char_app, H; reflexivity). rewrite C, has_char_app in X. cbn in X. rewrite orb_true_r in X. discriminate.
      * split; [intros _|reflexivity]. exists t. split; [reflexivity|]. apply cut_last_none in C. rewrite has_char_app in C. now apply orb_false_iff in C as [_ C].
    + split; [cbn; destruct (seqb _ ""); discriminate|]. intros (t & -> & _). discriminate.
Qed.
Lemma real_ok n v : (forall f, v <> "file:" +s+ f) -> ~ bad_alias v -> exists m w, real_dep n v m w /\
  (if has_prefix v "npm:" then match cut_last "@" v with None => Panic | Some (b, a) => Ok (str_skip 4 b, a) end else Ok (n, v)) = Ok (m, w).
Proof.
  intros F B. destruct (has_prefix v "npm:") eqn:P.
  - apply has_prefix_iff in P as (t & ->). destruct (cut_last "@" ("npm:" +s+ t)) as [[b a]|] eqn:C.
    + apply cut_last_some in C as [C N]. destruct b as [|c1 [|c2 [|c3 [|c4 b]]]]; cbn in C; try (injection C; intros; congruence).
      injection C as <- <- <- <- ->. exists b, a. split; [|reflexivity]. now apply (rd_alias n _ b a).
    + destruct B. exists t. split; [reflexivity|]. apply cut_last_none in C. rewrite has_char_app in C. now apply orb_false_iff in C as [_ C].
  - exists n, v. split; [|reflexivity]. apply rd_plain. intros t ->. discriminate.
Qed.
Lemma real_fun n v m w m' w' : real_dep n v m w -> real_dep n v m' w' -> m = m' /\ w = w'.
Proof.
  intros [H|m0 w0 E H] [H'|m1 w1 E' H']; auto.
  - destruct (H _ E').
  - destruct (H' _ E).
  - rewrite E' in E. apply sapp_inj_l in E. symmetry in E. apply at_key in E; auto.
Qed.
Lemma dep_fun n v i p i' p' : npm_dep url n v i p -> npm_dep url n v i' p' -> i = i' /\ p = p'.
Proof.
  intros [f E|m w F R C|m w c F R C N] [f' E'|m' w' F' R' C'|m' w' c' F' R' C' N'];
    try (exfalso; eapply F; eassumption); try (exfalso; eapply F'; eassumption); auto.
  - destruct (real_fun _ _ _ _ _ _ R R') as [-> ->]. auto.
  - pose proof (resolution_commit_fun _ _ _ _ C C'). congruence.
  - pose proof (resolution_commit_fun _ _ _ _ C C'). congruence.
  - pose proof (resolution_commit_fun _ _ _ _ C C'). subst. destruct (real_fun _ _ _ _ _ _ R R') as [-> ->]. auto.
Qed.
Lemma entry_dep n v : ~ bad_alias v -> exists i p, entry n v = Ok (p_name p +s+ "@" +s+ i, p) /\ npm_dep url n v i p.
Proof.
  intros B. unfold npm_entry. destruct (has_prefix v "file:") eqn:F.
  - apply has_prefix_iff in F as (f & ->). eexists _, _. split; [|eapply nd_file; reflexivity]. reflexivity.
  - assert (NF : forall f, v <> "file:" +s+ f) by (apply has_prefix_false; exact F). destruct (real_ok n v NF B) as (m & w & R & ->). cbn [rbind].
    pose proof (extract_spec url v) as C. destruct (seqb_spec (try_extract_commit url v) "") as [E|E]; cbn [negb].
    + rewrite E in C. eexists _, _. split; [|eapply nd_plain; eauto]. reflexivity.
    + eexists _, _. split; [|eapply nd_commit; eauto]. reflexivity.
Qed.
Lemma entry_iff n v k p : entry n v = Ok (k, p) <-> exists i, npm_dep url n v i p /\ k = p_name p +s+ "@" +s+ i.
Proof.
  assert (D : ~ bad_alias v \/ bad_alias v).
  { destruct (entry n v) as [e|] eqn:E; [left|right]; [|now apply entry_bad in E]. intros H. apply (entry_bad n) in H. congruence. }
  destruct D as [D|D].
  - destruct (entry_dep n v D) as (i & q & E & Q). rewrite E. split.
    + intros H. injection H as <- <-. eauto.
    + intros (i' & P & ->). destruct (dep_fun _ _ _ _ _ _ P Q) as [-> ->]. reflexivity.
  - split; [intros H; apply (entry_bad n) in D; congruence|]. intros (i & P & _). exfalso. destruct D as (t & -> & N).
    assert (A : forall m w, real_dep n ("npm:" +s+ t) m w -> False).
    { intros m w [H|m' w' E H]; [now apply (H t)|]. apply sapp_inj_l in E. subst t. rewrite !has_char_app in N. cbn in N. rewrite orb_true_r in N. discriminate. }
    inversion P; subst; [discriminate| |]; eauto.
Qed.
Lemma entries_iff deps k p : In (k, p) (entries (all_deps deps)) <-> listed url deps k p.
Proof.
  unfold entries, listed. rewrite in_flat_map. split.
  - intros ([n v] & I & H). cbn in H. destruct (entry n v) as [e|] eqn:E; [|contradiction]. destruct H as [->|[]]. apply entry_iff in E as (i & D & ->). exists n, v, i. rewrite <- all_deps_iff. auto.
  - intros (n & v & i & I & D & ->). exists (n, v). rewrite all_deps_iff. split; [exact I|]. cbn. assert (E : entry n v = Ok (p_name p +s+ "@" +s+ i, p)) by (apply entry_iff; eauto).
    rewrite E. now left.
Qed.
Lemma bad_iff deps : Exists bad (all_deps deps) <-> exists n v, dep_in deps n v /\ bad_alias v.
Proof.
  rewrite Exists_exists. split.
  - intros ([n v] & I & B). apply all_deps_iff in I. apply entry_bad in B. eauto.
  - intros (n & v & I & B). exists (n, v). split; [now apply all_deps_iff|]. now apply entry_bad.
Qed.
End WithUrl.

(** ** documents *)
Lemma npm_dep_eq j : dec_npm_dep j = dec_struct (fun k v d =>
    if seqb k "version" then option_map (fun s => mkNpmDep s (nd_deps d)) (dec_string v (nd_version d))
    else if seqb k "dependencies" then option_map (mkNpmDep (nd_version d)) (dec_map dec_npm_dep v)
    else Some d) (mkNpmDep "" None) j.
Proof. destruct j; reflexivity. Qed.
Lemma jmap_impl_in {A} (P Q : A -> json -> Prop) m j : Forall (fun e => forall v, P (snd e) v -> Q (snd e) v) m -> jmap P m j -> jmap Q m j.
Proof.
  intros I (l & -> & N & F). exists l. split; [reflexivity|]. split; [exact N|]. clear N. induction F as [|e kv m l [E H] F IH]; constructor.
  - split; [exact E|]. inversion I; auto.
  - apply IH. inversion I; auto.
Qed.
Lemma npm_dep_dec d : forall j, npm_dep_doc d j -> dec_npm_dep j = Some d.
Proof.
  induction d as [v|v l F] using NpmDep_nested; intros j D; inversion D as [v' w j' O H|v' w l' x j' O H M]; subst; rewrite npm_dep_eq;
    (erewrite (struct_shape _ ["version"; "dependencies"]); [|intros k u s K; key_cases K; reflexivity|exact H]).
  - destruct O as [->|[-> ->]]; reflexivity.
  - assert (E : dec_map dec_npm_dep x = Some (Some l)) by (apply dec_map_spec; eapply jmap_impl_in; [|exact M]; exact F).
    destruct O as [->|[-> ->]]; cbn -[dec_map]; now rewrite E.
Qed.
Lemma npm_package_dec p j : npm_package_doc p j -> dec_npm_package j = Some p.
Proof.
  intros (w1 & w2 & w3 & w4 & O1 & O2 & O3 & O4 & H). unfold dec_npm_package.
  erewrite (struct_shape _ ["name"; "version"; "resolved"; "dependencies"]); [|intros k u s K; key_cases K; reflexivity|exact H].
  assert (E : forall q, fold_left (fun acc kv => match acc with None => None | Some s => (fun k v p =>
    if seqb k "name" then option_map (fun s => mkNpmPackage s (np_version p) (np_resolved p)) (dec_string v (np_name p))
    else if seqb k "version" then option_map (fun s => mkNpmPackage (np_name p) s (np_resolved p)) (dec_string v (np_version p))
    else if seqb k "resolved" then option_map (fun s => mkNpmPackage (np_name p) (np_version p) s) (dec_string v (np_resolved p))
    else if seqb k "dependencies" then option_map (fun _ => p) (dec_map (fun v => dec_string v "") v)
    else Some p) (fst kv) (snd kv) s end) w4 (Some q) = Some q).
  { intros q. destruct O4 as [->|(ds & d & -> & M)]; [reflexivity|]. cbn -[dec_map]. erewrite dec_map_spec; [reflexivity|]. eapply jmap_impl; [|exact M]. intros a v ->. reflexivity. }
  destruct p as [n v r]. cbn [np_name np_version np_resolved] in *. rewrite !fold_left_app.
  destruct O1 as [->|[-> ->]], O2 as [->|[-> ->]], O3 as [->|[-> ->]]; apply E.
Qed.
Lemma npm_doc1_dec deps j : npm_doc1 deps j -> exists z, dec_npm j = Some (mkNpmLockfile z (Some deps) None).
Proof.
  intros (ver & d & V & H & M). unfold dec_npm. erewrite (struct_shape _ npm_keys); [|intros k u s K; key_cases K; reflexivity|exact H].
  assert (E : dec_map dec_npm_dep d = Some (Some deps)) by (apply dec_map_spec; eapply jmap_impl; [|exact M]; intros; now apply npm_dep_dec).
  destruct V as [->|(n & -> & L)]; cbn -[dec_map dec_int dec_of_nat]; [rewrite E; now exists 0%Z|]. rewrite (dec_int_nat n L). cbn -[dec_map dec_int]. rewrite E. now exists (Z.of_nat n).
Qed.
Lemma npm_doc2_dec ps j : npm_doc2 ps j -> exists z ds, dec_npm j = Some (mkNpmLockfile z ds (Some ps)).
Proof.
  intros (ver & p & w & V & W & H & M). unfold dec_npm. erewrite (struct_shape _ npm_keys); [|intros k u s K; key_cases K; reflexivity|exact H].
  assert (E : dec_map dec_npm_package p = Some (Some ps)) by (apply dec_map_spec; eapply jmap_impl; [|exact M]; intros; now apply npm_package_dec).
  assert (G : forall z, exists ds, fold_left (fun acc kv => match acc with None => None | Some s => (fun k v l =>
    if seqb k "lockfileversion" then option_map (fun z => mkNpmLockfile z (nl_deps l) (nl_packages l)) (dec_int v (nl_version l))
    else if seqb k "dependencies" then option_map (fun m => mkNpmLockfile (nl_version l) m (nl_packages l)) (dec_map dec_npm_dep v)
    else if seqb k "packages" then option_map (fun m => mkNpmLockfile (nl_version l) (nl_deps l) m) (dec_map dec_npm_package v)
    else Some l) (fst kv) (snd kv) s end) ([("packages", p)] ++ w) (Some (mkNpmLockfile z None None)) = Some (mkNpmLockfile z ds (Some ps))).
  { intros z. cbn -[dec_map dec_int]. rewrite E. cbn -[dec_map dec_int]. destruct W as [->|(ds & d & -> & D)]; [eexists; reflexivity|]. exists (Some ds). cbn -[dec_map].
    erewrite dec_map_spec; [reflexivity|]. eapply jmap_impl; [|exact D]. intros; now apply npm_dep_dec. }
  destruct V as [->|(n & -> & L)].
  - destruct (G 0%Z) as (ds & X). exists 0%Z, ds. exact X.
  - destruct (G (Z.of_nat n)) as (ds & X). exists (Z.of_nat n), ds. rewrite fold_left_app. cbn -[dec_map dec_int dec_of_nat app fold_left]. cbn [fold_left fst snd].
    change (seqb "lockfileversion" "lockfileversion") with true. cbv iota. cbn [nl_version nl_deps nl_packages]. rewrite (dec_int_nat n L). cbn [option_map]. exact X.
Qed.

(** ** v1 *)
Lemma npm_file1 it files url path j deps : json_file files path j -> npm_doc1 deps j ->
  parse_npm_lock it files url path = rbind (parse_npm_dependencies it url deps) (fun m => packages_of (map_to_slice it m)).
Proof.
  intros F D. destruct (npm_doc1_dec _ _ D) as (z & E). destruct D as (v & d & _ & O & _). unfold parse_npm_lock. erewrite decoded_json; [|exact F|exact O|exact E]. reflexivity.
Qed.
Lemma npm_crash1 it files url path j deps : IterOk it -> json_file files path j -> npm_doc1 deps j ->
  (parse_npm_lock it files url path = Panic <-> exists n v, dep_in deps n v /\ bad_alias v).
Proof.
  intros IT F D. rewrite (npm_file1 _ _ _ _ _ _ F D), <- (bad_iff url). destruct (dependencies_ok url it IT deps) as [[-> B]|(m & -> & _ & B)]; cbn [rbind].
  - tauto.
  - split; [discriminate|contradiction].
Qed.
Lemma npm_built1 it files url path j deps : IterOk it -> json_file files path j -> npm_doc1 deps j -> (forall n v, dep_in deps n v -> ~ bad_alias v) ->
  exists m, parse_npm_lock it files url path = Ok (inr (map_to_slice it m)) /\ built m (entries url (all_deps deps)).
Proof.
  intros IT F D N. rewrite (npm_file1 _ _ _ _ _ _ F D). destruct (dependencies_ok url it IT deps) as [[_ B]|(m & -> & B & _)].
  - apply bad_iff in B as (n & v & I & B). destruct (N n v I B).
  - exists m. split; [reflexivity|exact B].
Qed.
Lemma npm_once1 it files url path j deps : IterOk it -> json_file files path j -> npm_doc1 deps j -> (forall n v, dep_in deps n v -> ~ bad_alias v) ->
  exists ps, parse_npm_lock it files url path = Ok (inr ps) /\ per_key (listed url deps) ps.
Proof.
  intros IT F D N. destruct (npm_built1 it files url path j deps IT F D N) as (m & E & B). eexists. split; [exact E|]. eapply built_per_key; [exact IT|exact B|]. intros k p. apply entries_iff.
Qed.
Lemma name_at_inj n i n' i' : npm_name n -> npm_name n' -> n +s+ "@" +s+ i = n' +s+ "@" +s+ i' -> n = n' /\ i = i'.
Proof. intros N N' E. pose proof (cut_at_name n i N) as C. rewrite E, (cut_at_name n' i' N') in C. injection C as -> ->. auto. Qed.
Lemma listed_fun url deps : sound_deps url deps -> forall k p q, listed url deps k p -> listed url deps k q -> p = q.
Proof.
  intros [N S] k p q P Q. pose proof (N _ _ P) as NP. pose proof (N _ _ Q) as NQ. pose proof (S _ _ _ P Q) as S1. pose proof (S _ _ _ Q P) as S2.
  destruct P as (n & v & i & _ & P & ->), Q as (n' & v' & i' & _ & Q & E). apply name_at_inj in E as [E1 <-]; auto.
  destruct P as [f V|m w F R C|m w c F R C X]; inversion Q as [f' V'|m' w' F' R' C'|m' w' c' F' R' C' X']; subst; cbn [p_name p_commit] in *; subst;
    try (specialize (S1 eq_refl)); try (specialize (S2 eq_refl)); try congruence;
    try (exfalso; match goal with H : forall f, _ <> "file:" +s+ f |- _ => now eapply H end).
  inversion R as [H|m1 w1 E1 H]; inversion R' as [H'|m2 w2 E2 H']; subst; try reflexivity.
  - destruct (H _ eq_refl).
  - destruct (H' _ eq_refl).
  - apply sapp_inj_l in E2. apply at_key in E2 as [_ ->]; auto.
Qed.

(** ** v2: names in paths *)
Lemma base_slash p e : e <> "" -> has_char "/" e = false -> path_base (p +s+ "/" +s+ e) = e.
Proof.
  intros He1 He4. unfold path_base. destruct (seqb_spec (p +s+ "/" +s+ e) "") as [E|_].
  { apply sapp_nil_inv in E as [_ E]. discriminate. }
  assert (T : trim_trailing_slashes (str_rev (p +s+ "/" +s+ e)) = str_rev (p +s+ "/" +s+ e)).
  { rewrite !str_rev_append. destruct (str_rev e) as [|c r] eqn:Er.
    - exfalso. apply He1. rewrite <- (str_rev_involutive e), Er. reflexivity.
    - cbn. destruct (Ascii.eqb_spec c "/") as [->|]; [|reflexivity]. exfalso.
      assert (H : has_char "/" e = true); [|congruence].
      rewrite <- (str_rev_involutive e), Er, str_rev_cons, has_char_app. cbn. now rewrite orb_true_r. }
  rewrite T, str_rev_involutive. destruct (seqb_spec (p +s+ "/" +s+ e) "") as [E|_].
  { apply sapp_nil_inv in E as [_ E]. discriminate. }
  assert (E : cut_last "/" (p +s+ "/" +s+ e) = Some (p, e)) by (apply cut_last_some; now split).
  now rewrite E.
Qed.
Lemma base_alone e : e <> "" -> has_char "/" e = false -> path_base e = e.
Proof.
  intros He1 He4. unfold path_base. destruct (seqb_spec e "") as [E|_]; [contradiction|].
  assert (T : trim_trailing_slashes (str_rev e) = str_rev e).
  { destruct (str_rev e) as [|c r] eqn:Er; [reflexivity|]. cbn. destruct (Ascii.eqb_spec c "/") as [->|]; [|reflexivity]. exfalso.
    assert (H : has_char "/" e = true); [|congruence]. rewrite <- (str_rev_involutive e), Er, str_rev_cons, has_char_app. cbn. now rewrite orb_true_r. }
  rewrite T, str_rev_involutive. destruct (seqb_spec e "") as [E|_]; [contradiction|].
  assert (E : cut_last "/" e = None) by now apply cut_last_none. now rewrite E.
Qed.
Lemma base_join l e : e <> "" -> has_char "/" e = false -> path_base (join "/" (l ++ [e])) = e.
Proof.
  intros A B. destruct l as [|x l]; [now apply base_alone|]. rewrite join_app by discriminate. now apply base_slash.
Qed.
Definition rel (l : list string) : Prop := exists n es, l = repeat ".." n ++ es /\ Forall elem es.
Lemma rev_repeat {A} (x : A) n : rev (repeat x n) = repeat x n.
Proof.
  induction n as [|n IH]; [reflexivity|]. cbn [repeat rev]. rewrite IH. change [x] with (repeat x 1). rewrite <- repeat_app. replace (n + 1) with (S n) by lia. reflexivity.
Qed.
Lemma rel_kept l : rel l -> kept false (rev l).
Proof. intros (n & es & -> & F). exists es, n. rewrite rev_app_distr, rev_repeat. split; [reflexivity|]. split; [exact F|discriminate]. Qed.
Lemma rel_pieces l : rel l -> Forall (fun x => has_char "/" x = false /\ x <> "") l.
Proof. intros R. apply rel_kept, kept_pieces in R. apply Forall_rev in R. now rewrite rev_involutive in R. Qed.
Lemma clean_slash l : rel l -> l <> [] -> clean (join "/" l +s+ "/") = join "/" l.
Proof.
  intros R N. pose proof (rel_pieces l R) as P. assert (J : join "/" l +s+ "/" = join "/" (l ++ [""])) by (rewrite join_app by (exact N || discriminate); reflexivity).
  assert (S : split_char "/" (join "/" l +s+ "/") = l ++ [""]).
  { rewrite J. apply split_char_join; [destruct l; discriminate|]. apply Forall_app. split; [|repeat constructor]. eapply Forall_impl; [|exact P]. intros a [A _]. exact A. }
  assert (RO : rooted (join "/" l +s+ "/") = false).
  { pose proof (join_head_not_rooted l P) as H. unfold rooted in *. destruct l as [|x l]; [congruence|]. inversion P as [|? ? [_ X] _]; subst. destruct x as [|c x]; [congruence|].
    apply has_prefix_false. intros r E. rewrite has_prefix_false in H. destruct l as [|y l]; cbn in E; injection E as -> _; eapply H; reflexivity. }
  assert (C : clean_elems (join "/" l +s+ "/") = l).
  { unfold clean_elems. rewrite RO, S, fold_left_app. cbn [fold_left]. pose proof (kept_refold _ _ (rel_kept l R)) as K. rewrite rev_involutive in K. rewrite K.
    cbn [clean_step seqb String.eqb orb]. apply rev_involutive. }
  unfold clean. rewrite C, RO. destruct (seqb_spec (join "/" l) "") as [E|]; [|reflexivity]. exfalso.
  destruct l as [|x l]; [congruence|]. inversion P as [|? ? [_ X] _]; subst. destruct x; [congruence|]. destruct l; discriminate.
Qed.
Lemma rel_front l e : rel (l ++ [e]) -> rel l.
Proof.
  intros (n & es & E & F). destruct (rev_case es) as [->|(es' & x & ->)].
  - rewrite app_nil_r in E. destruct n as [|n]; [destruct l; discriminate|]. exists n, []. split; [|constructor]. rewrite app_nil_r.
    replace (S n) with (n + 1) in E by lia. rewrite repeat_app in E. apply app_inj_tail in E as [-> _]. reflexivity.
  - rewrite app_assoc in E. apply app_inj_tail in E as [-> _]. apply Forall_app in F as [F _]. now exists n, es'.
Qed.
Lemma dir_join l e : rel (l ++ [e]) -> l <> [] -> path_dir (join "/" (l ++ [e])) = join "/" l.
Proof.
  intros R N. pose proof (rel_pieces _ R) as P. apply Forall_app in P as [_ P]. inversion P as [|? ? [S X] _]; subst. rewrite join_app by (exact N || discriminate). cbn [join].
  unfold path_dir. assert (E : cut_last "/" (join "/" l +s+ "/" +s+ e) = Some (join "/" l, e)) by (apply cut_last_some; now split). rewrite E.
  apply clean_slash; [eapply rel_front; exact R|exact N].
Qed.
Lemma path_extract l path n : rel_path l path -> path_name l n -> extract_npm_package_name path = n.
Proof.
  intros (k & es & L & F & N & ->) H. assert (R : rel l) by (exists k, es; split; [exact L|exact F]). unfold extract_npm_package_name.
  destruct H as [pre s e S E|pre d e D E|e E].
  - change (pre ++ ["@" +s+ s; e]) with (pre ++ ["@" +s+ s] ++ [e]) in *. rewrite app_assoc in *. rewrite dir_join; [|exact R|destruct pre; discriminate].
    rewrite !base_join; [reflexivity| | | |]; (apply S || apply E).
  - change (pre ++ [d; e]) with (pre ++ [d] ++ [e]) in *. rewrite app_assoc in *. rewrite dir_join; [|exact R|destruct pre; discriminate].
    pose proof (rel_pieces _ R) as P. apply Forall_app in P as [P _]. apply Forall_app in P as [_ P]. inversion P as [|? ? [P1 P2] _]; subst. destruct E as (E1 & _ & _ & E4).
    rewrite !base_join by auto. assert (has_prefix d "@" = false) as -> by (apply has_prefix_false; exact D). reflexivity.
  - destruct E as (E1 & _ & _ & E4). cbn [join]. rewrite (base_alone e) by auto. unfold path_dir.
    assert (X : cut_last "/" e = None) by now apply cut_last_none. rewrite X. reflexivity.
Qed.

(** ** v2: packages *)
Section Packages.
Variable url : string -> option Url.
Variable it : Iter.
Hypothesis IT : IterOk it.
Definition not_root {A} (d : string * A) : bool := negb (seqb (fst d) "").
Definition package_of (d : string * NpmPackage) : Pkg := snd (npm_package url (fst d) (snd d)).
Lemma package_key d : fst (npm_package url (fst d) (snd d)) = npm_id (package_of d).
Proof. unfold npm_package, package_of, npm_id, npm_package. cbn -[seqb]. destruct (seqb (try_extract_commit url (np_resolved (snd d))) ""); reflexivity. Qed.
Lemma package_spec d : npm_package_of url (fst d) (snd d) (package_of d).
Proof.
  unfold package_of, npm_package. cbn. apply npo; [|apply extract_spec]. destruct (seqb_spec (np_name (snd d)) "") as [E|E]; [right|left; auto].
  split; [exact E|]. intros l n R N. now apply (path_extract l).
Qed.
Lemma packages_built ps : built (parse_npm_packages it url ps) (map (fun d => (npm_id (package_of d), package_of d)) (filter not_root ps)).
Proof.
  unfold parse_npm_packages.
  assert (E : forall l m, fold_left (fun details '((name_path, detail) : string * NpmPackage) =>
    if seqb name_path "" then details else let '(k, p) := npm_package url name_path detail in map_set k p details) l m
    = fold_left (fun m '(k, v) => map_set k v m) (map (fun d => (npm_id (package_of d), package_of d)) (filter not_root l)) m).
  { induction l as [|[n d] l IH]; intros m; cbn [fold_left filter]; [reflexivity|]. unfold not_root at 1. cbn [fst]. destruct (seqb n ""); cbn [negb map fold_left]; [apply IH|].
    rewrite <- package_key. cbn [fst snd]. change (package_of (n, d)) with (snd (npm_package url n d)). destruct (npm_package url n d) as [k p]. apply IH. }
  rewrite E. eapply built_perm; [apply (built_fold _ [] []), built_nil|]. apply Permutation_map. cbn [app].
  assert (G : forall l l' : list (string * NpmPackage), Permutation l l' -> Permutation (filter not_root l) (filter not_root l')).
  { induction 1; cbn; repeat match goal with |- context [if ?b then _ else _] => destruct b end; auto; try constructor; auto. etransitivity; eauto. }
  apply G. symmetry. apply IT.
Qed.
End Packages.
Lemma npm_file2 it files url path j ps : json_file files path j -> npm_doc2 ps j ->
  parse_npm_lock it files url path = Ok (inr (map_to_slice it (parse_npm_packages it url ps))).
Proof.
  intros F D. destruct (npm_doc2_dec _ _ D) as (z & ds & E). destruct D as (v & p & w & _ & _ & O & _). unfold parse_npm_lock. erewrite decoded_json; [|exact F|exact O|exact E]. reflexivity.
Qed.
Lemma npm_lock2 it files url path j ps : IterOk it -> json_file files path j -> npm_doc2 ps j ->
  exists es out, parse_npm_lock it files url path = Ok (inr out) /\ once_per npm_id es out
    /\ Forall2 (fun d p => npm_package_of url (fst d) (snd d) p) (filter (fun d => negb (seqb (fst d) "")) ps) es.
Proof.
  intros IT F D. exists (map (package_of url) (filter not_root ps)). eexists. split; [eapply npm_file2; eauto|]. split.
  - pose proof (built_slice it _ _ IT (packages_built url it IT ps)) as P. apply (pick_key npm_id) in P.
    + rewrite map_map in P. cbn [snd] in P. exact P.
    + intros k p H. apply in_map_iff in H as (d & E & _). injection E as <- <-. reflexivity.
  - fold (@not_root NpmPackage). induction (filter not_root ps) as [|d l IH]; cbn; constructor; [apply package_spec|exact IH].
Qed.
Lemma npm_package_fun url path d l n p q : rel_path l path -> path_name l n -> npm_package_of url path d p -> npm_package_of url path d q -> p = q.
Proof.
  intros R N [name c A C] [name' c' A' C']. rewrite (resolution_commit_fun _ _ _ _ C C'). destruct A as [[A X]|[A X]], A' as [[A' X']|[A' X']]; try congruence.
  rewrite (X _ _ R N), (X' _ _ R N). reflexivity.
Qed.
Lemma npm_exact1 it files url path j deps : IterOk it -> json_file files path j -> npm_doc1 deps j -> (forall n v, dep_in deps n v -> ~ bad_alias v) -> sound_deps url deps ->
  exists ps, parse_npm_lock it files url path = Ok (inr ps) /\ forall p, In p ps <-> exists k, listed url deps k p.
Proof.
  intros IT F D N S. destruct (npm_once1 it files url path j deps IT F D N) as (ps & E & K). exists ps. split; [exact E|]. apply per_key_exact; [exact K|]. now apply listed_fun.
Qed.
Lemma npm_order1 it it' files url path j deps : IterOk it -> IterOk it' -> json_file files path j -> npm_doc1 deps j -> (forall n v, dep_in deps n v -> ~ bad_alias v) -> sound_deps url deps ->
  exists ps ps', parse_npm_lock it files url path = Ok (inr ps) /\ parse_npm_lock it' files url path = Ok (inr ps') /\ Permutation ps ps'.
Proof.
  intros IT IT' F D N S. destruct (npm_once1 it files url path j deps IT F D N) as (ps & E & K), (npm_once1 it' files url path j deps IT' F D N) as (ps' & E' & K').
  exists ps, ps'. split; [exact E|]. split; [exact E'|]. eapply per_key_perm; eauto. now apply listed_fun.
Qed.
Lemma npm_plain1 it files url path j deps : IterOk it -> json_file files path j -> npm_doc1 deps j ->
  (forall n v t, dep_in deps n v -> v <> "npm:" +s+ t /\ v <> "file:" +s+ t) ->
  exists ps, parse_npm_lock it files url path = Ok (inr ps) /\ NoDup (map npm_id ps) /\ per_key (listed url deps) ps.
Proof.
  intros IT F D N. assert (NB : forall n v, dep_in deps n v -> ~ bad_alias v) by (intros n v I (t & -> & _); now apply (N _ _ t) in I).
  destruct (npm_once1 it files url path j deps IT F D NB) as (ps & E & K). exists ps. split; [exact E|]. split; [|exact K]. destruct K as (m & P & ND & FR & _).
  eapply Permutation_NoDup; [apply Permutation_map; exact P|]. rewrite map_map. erewrite map_ext_in; [exact ND|]. intros [k p] I. cbn. apply FR in I as (n & v & i & I & H & ->).
  unfold npm_id. destruct H as [f V|m0 w V R C|m0 w c V R C X]; cbn [p_name p_version p_commit].
  - destruct (N _ _ f I) as [_ W]. congruence.
  - destruct R as [_|m1 w1 E1 _]; [reflexivity|]. destruct (N _ _ (m1 +s+ "@" +s+ w1) I) as [W _]. congruence.
  - destruct (seqb_spec c ""); [contradiction|reflexivity].
Qed.
