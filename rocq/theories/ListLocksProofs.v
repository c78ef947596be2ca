From Verif Require Import GoStr GoStrFacts Types Json MemDB MemDBProofs GoMap Scan Ecosystems LockIO ListLocks KeyLocks LockSpec LockJson.

Lemma map_makes {A} (f : A -> Pkg) (R : A -> Pkg -> Prop) : (forall a p, R a p -> f a = p) -> forall l ps, Forall2 R l ps -> map f l = ps.
Proof. intros I l ps F. induction F as [|a p l ps H F IH]; cbn; [reflexivity|]. now rewrite (I _ _ H), IH. Qed.
Lemma flat_makes {A} (f : A -> list Pkg) (R : A -> option Pkg -> Prop) :
  (forall a p, R a (Some p) -> f a = [p]) -> (forall a, R a None -> f a = []) -> forall l ps, makes R l ps -> flat_map f l = ps.
Proof.
  intros I J l ps F. induction F as [|a p l ps H F IH|a l ps H F IH]; cbn; [reflexivity| |]; rewrite IH; [now rewrite (I _ _ H)|now rewrite (J _ H)].
Qed.
Definition read (files : string -> txt) (path : string) {A} (decode : string -> option A) (a : A) : Prop :=
  exists content, files path = Text content false /\ decode content = Some a.
Lemma decoded_read {A} files path (decode : string -> option A) a k : read files path decode a -> decoded files decode path k = k a.
Proof. intros (c & F & D). unfold decoded, read_file. now rewrite F, D. Qed.

Lemma cargo_lock files toml path l ps : read files path toml l -> Forall2 cargo_entry l ps -> parse_cargo_lock files toml path = Ok (inr ps).
Proof. intros R F. unfold parse_cargo_lock. rewrite (decoded_read _ _ _ _ _ R). unfold packages_of, cargo_packages. do 2 f_equal. eapply map_makes; [|exact F]. intros a p []. reflexivity. Qed.
Lemma pdm_lock files toml path l ps : read files path toml l -> Forall2 pdm_entry l ps -> parse_pdm_lock files toml path = Ok (inr ps).
Proof.
  intros R F. unfold parse_pdm_lock. rewrite (decoded_read _ _ _ _ _ R). unfold packages_of, pdm_packages. do 2 f_equal. eapply map_makes; [|exact F].
  intros a p [n v r]. cbn -[seqb]. destruct (seqb_spec r "") as [->|]; reflexivity.
Qed.
Lemma poetry_lock files toml path l ps : read files path toml l -> Forall2 poetry_entry l ps -> parse_poetry_lock files toml path = Ok (inr ps).
Proof. intros R F. unfold parse_poetry_lock. rewrite (decoded_read _ _ _ _ _ R). unfold packages_of, poetry_packages. do 2 f_equal. eapply map_makes; [|exact F]. intros a p []. reflexivity. Qed.
Lemma pylock_lock files toml path l ps : read files path toml l -> makes pylock_entry l ps -> parse_pylock files toml path = Ok (inr ps).
Proof.
  intros R F. unfold parse_pylock. rewrite (decoded_read _ _ _ _ _ R). unfold packages_of, pylock_packages. do 2 f_equal. eapply flat_makes; [| |exact F].
  - intros a p H. inversion H as [|n v c d O E1 E2]; subst. cbn -[seqb]. destruct (seqb_spec v ""), (seqb_spec d "."); try (subst; tauto); cbn -[seqb]; (destruct (seqb_spec c "") as [->|]; reflexivity).
  - intros a H. inversion H; subst. reflexivity.
Qed.
Lemma cut_after_found a c : has_char "#" a = false -> cut_after (a +s+ "#" +s+ c) "#" = c.
Proof. intros H. unfold cut_after. change ("#" +s+ c) with (String "#" c). now rewrite cut_char_found. Qed.
Lemma cut_after_absent a : has_char "#" a = false -> cut_after a "#" = "".
Proof. intros H. unfold cut_after. now rewrite cut_char_absent. Qed.
Lemma uv_lock files toml path l ps : read files path toml l -> makes uv_entry l ps -> parse_uv_lock files toml path = Ok (inr ps).
Proof.
  intros R F. unfold parse_uv_lock. rewrite (decoded_read _ _ _ _ _ R). unfold packages_of, uv_packages. do 2 f_equal. eapply flat_makes; [| |exact F].
  - intros a p H. inversion H as [|n v w x c W N E1 E2|n v w g W N E1 E2]; subst; cbn [uv_virtual uv_git uv_name uv_version]; (destruct (seqb_spec w "."); [contradiction|]).
    + now rewrite cut_after_found.
    + now rewrite cut_after_absent.
  - intros a H. inversion H; subst. reflexivity.
Qed.
Lemma composer_entry_eq a p : composer_entry a p -> composer_package a = p.
Proof.
  intros [n v r c C]. unfold composer_package, extract_commit. cbn [cm_name cm_version cm_ref].
  assert (E : contains r "." = has_char "." r).
  { destruct (has_char "." r) eqn:H.
    - apply has_char_iff in H as (x & y & ->). apply contains_iff. exists x, y. reflexivity.
    - apply contains_false. intros x y ->. rewrite has_char_app in H. cbn in H. rewrite orb_true_r in H. discriminate. }
  rewrite E. destruct C as [->| ->]; reflexivity.
Qed.
Lemma composer_lock files path j a b ps qs : json_file files path j -> composer_doc a b j -> Forall2 composer_entry a ps -> Forall2 composer_entry b qs ->
  parse_composer_lock files path = Ok (inr (ps ++ qs)).
Proof.
  intros J D F G. pose proof (composer_doc_dec _ _ _ D) as E. destruct D as (x & y & O & _). unfold parse_composer_lock. erewrite decoded_json; [|exact J|exact O|exact E].
  cbn [deref]. unfold composer_packages. rewrite (map_makes _ _ composer_entry_eq _ _ F), (map_makes _ _ composer_entry_eq _ _ G). reflexivity.
Qed.
Lemma makes_perm {A} (R : A -> option Pkg -> Prop) l l' : Permutation l l' -> forall ps, makes R l ps -> exists ps', makes R l' ps' /\ Permutation ps ps'.
Proof.
  induction 1 as [|x l l' P IH|x y l|l l' l'' P1 IH1 P2 IH2]; intros ps M.
  - inversion M; subst. exists []. split; constructor.
  - inversion M; subst.
    + destruct (IH _ H3) as (q & M' & Q). exists (p :: q). split; [now constructor|now constructor].
    + destruct (IH _ H3) as (q & M' & Q). exists q. split; [now constructor|exact Q].
  - inversion M as [|? p ? ps1 H1 M1|? ? ps1 H1 M1]; subst; inversion M1 as [|? p' ? ps2 H2 M2|? ? ps2 H2 M2]; subst.
    + exists (p' :: p :: ps2). split; [repeat constructor; auto|constructor].
    + eexists. split; [apply mk_none; [exact H2|]; apply mk_some; [exact H1|exact M2]|reflexivity].
    + eexists. split; [apply mk_some; [exact H2|]; apply mk_none; [exact H1|exact M2]|reflexivity].
    + eexists. split; [apply mk_none; [exact H2|]; apply mk_none; [exact H1|exact M2]|reflexivity].
  - destruct (IH1 _ M) as (q & M1 & Q1). destruct (IH2 _ M1) as (q' & M2 & Q2). exists q'. split; [exact M2|eapply Permutation_trans; eauto].
Qed.
Lemma renv_lock it files path j m ps : IterOk it -> json_file files path j -> renv_doc m j -> makes (fun e => renv_entry (snd e)) m ps ->
  exists out, parse_renv_lock it files path = Ok (inr out) /\ Permutation ps out.
Proof.
  intros IT J D M. pose proof (renv_doc_dec _ _ D) as E. destruct D as (x & O & _). unfold parse_renv_lock. erewrite decoded_json; [|exact J|exact O|exact E].
  cbn [deref map_entries]. destruct (makes_perm _ _ _ (IT _ m) _ M) as (out & M' & P). exists out. split; [|exact P]. unfold packages_of, renv_packages. do 2 f_equal.
  eapply flat_makes; [| |exact M'].
  - intros [k a] p H. cbn [snd] in H. inversion H; subst; reflexivity.
  - intros [k a] H. cbn [snd] in H. inversion H; subst. cbn -[seqb]. unfold CRANEcosystem. destruct (seqb_spec r ""), (seqb_spec r "CRAN"); try contradiction. reflexivity.
Qed.
Lemma pubspec_lock it files yaml path m ps : IterOk it -> read files path yaml (Some (Some m)) -> Forall2 pubspec_entry m ps ->
  exists out, parse_pubspec_lock it files yaml path = Ok (inr out) /\ Permutation ps out.
Proof.
  intros IT R F. unfold parse_pubspec_lock. rewrite (decoded_read _ _ _ _ _ R). cbn [map_entries]. unfold pubspec_packages.
  set (f := fun '(name, p) => _). assert (E : map f m = ps) by (eapply map_makes; [|exact F]; intros a p []; reflexivity).
  exists (map f (it _ m)). split; [reflexivity|]. rewrite <- E. apply Permutation_map, IT.
Qed.
(** descriptions: an object, or a plain string which is the path *)
Lemma description_object d s old : unmarshal_description (Some d) s old = Ok (Some d).
Proof. now destruct d. Qed.
