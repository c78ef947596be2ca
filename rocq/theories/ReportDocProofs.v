From Verif Require Import GoStr GoStrFacts Types Json JsonFacts JsonRound MemDB OsvJson OsvJsonSpec OsvJsonProofs OsvJsonRound Lockfile Report ReportDocSpec.

(** ** members of written objects *)
Fixpoint lookup (l : list (string * json)) (k : string) : option json :=
  match l with [] => None | (k', v) :: l' => if seqb (fold_key k') k then Some v else lookup l' k end.
Lemma lookup_none l k : lookup l k = None -> ~ keyed k l.
Proof.
  induction l as [|[k' v] l IH]; cbn; intros H (q & w & I & E); [destruct I|]. destruct (seqb_spec (fold_key k') k) as [|D]; [discriminate|].
  destruct I as [[= <- <-]|I]; [contradiction|]. apply IH; [exact H|]. exists q, w. auto.
Qed.
Lemma lookup_member l k : NoDup (map (fun kv => fold_key (fst kv)) l) -> member l k (lookup l k).
Proof.
  induction l as [|[k' v] l IH]; cbn [map lookup]; intros N; [constructor; intros (q & w & [] & _)|]. inversion N as [|? ? N1 N2]; subst.
  destruct (seqb_spec (fold_key k') k) as [<-|D].
  - apply mb_some with [] k' l; auto; [intros (q & w & [] & _)|]. intros (q & w & I & E). apply N1. cbn [fst]. rewrite <- E. apply in_map_iff. exists (q, w). auto.
  - destruct (IH N2) as [NM|l1 q w l2 E1 E2 A B].
    + constructor. intros (q & w & [I|I] & E); [injection I as <- <-; contradiction|]. apply NM. exists q, w. auto.
    + apply mb_some with ((k', v) :: l1) q l2; auto; [now rewrite E1|]. intros (q' & w' & [I|I] & E'); [injection I as <- <-; contradiction|]. apply A. exists q', w'. auto.
Qed.
Ltac keys := cbn [map app fst]; repeat (constructor; [intros I; apply GoStrFacts.mem_iff in I; vm_compute in I; discriminate I|]); constructor.
Lemma said s : says (Some (JStr s)) s. Proof. now left. Qed.
Lemma left_out : says None "". Proof. right. split; [now left|reflexivity]. Qed.
Lemma docs_map {A} (P : json -> A -> Prop) (e : A -> json) l : Forall (fun a => P (e a) a) l -> Forall2 P (map e l) l.
Proof. induction 1; constructor; auto. Qed.
Section Docs.
Variable f : string -> option string.
Variable oj : OSV -> json.
Hypothesis F : faithful f oj.
Lemma row_written x : Forall (sound f) (pv_vulns x ++ pv_ignored x) -> row_doc f (pkg_vulns_json oj x) x.
Proof.
  intros S. apply Forall_app in S as [S1 S2].
  assert (D1 : Forall2 (osv_doc f) (map oj (pv_vulns x)) (pv_vulns x)) by (apply docs_map; eapply Forall_impl; [|exact S1]; intros o So; apply F, So).
  assert (D2 : Forall2 (osv_doc f) (map oj (pv_ignored x)) (pv_ignored x)) by (apply docs_map; eapply Forall_impl; [|exact S2]; intros o So; apply F, So).
  destruct x as [[n v c e m] vs is]. cbn [pv_pkg pv_vulns pv_ignored] in *. unfold pkg_vulns_json, pkg_fields, omit. cbn [pv_pkg pv_vulns pv_ignored p_name p_version p_commit p_eco p_cmp].
  destruct (seqb_spec c "") as [-> |_], (seqb_spec e "") as [-> |_], (seqb_spec m "") as [-> |_]; cbn [app];
    match goal with |- row_doc _ (JObj ?l) _ =>
      assert (N : NoDup (map (fun kv => fold_key (fst kv)) l)) by keys;
      eapply (rw_doc f l _ (lookup l "name") (lookup l "version") (lookup l "commit") (lookup l "ecosystem") (lookup l "compareas"));
      try (apply lookup_member; exact N);
      try exact (lookup_member l "vulnerabilities" N); try exact (lookup_member l "ignored" N);
      try exact D1; try exact D2;
      first [exact (said _) | exact left_out]
    end.
Qed.
Lemma file_written r : Forall (fun x => Forall (sound f) (pv_vulns x ++ pv_ignored x)) (rp_pkgs r) -> file_doc f (result_json oj (RReport r)) r.
Proof.
  intros S. unfold result_json. match goal with |- file_doc _ (JObj ?l) _ => set (L := l); assert (N : NoDup (map (fun kv => fold_key (fst kv)) L)) by (unfold L; keys) end.
  eapply (fd_doc f L r (lookup L "filepath") (lookup L "parsedas")); try (apply lookup_member; exact N); try exact (lookup_member L "packages" N); try exact (said _).
  apply docs_map. eapply Forall_impl; [|exact S]. intros x Sx. now apply row_written.
Qed.
Lemma fields_good p : Forall utf8 (pkg_texts p) -> Forall (fun kv => utf8 (fst kv) /\ good (snd kv) = true) (pkg_fields p).
Proof.
  intros H. unfold pkg_texts in H. inversion H as [|? ? A H1]; subst. inversion H1 as [|? ? B H2]; subst. inversion H2 as [|? ? C H3]; subst. inversion H3 as [|? ? D H4]; subst. inversion H4 as [|? ? E _]; subst.
  unfold pkg_fields. change omit with omit_empty. rewrite !Forall_app. split; [|split; [|split]]; try (apply good_omit; auto; key).
  constructor; [split; [key|now apply good_str]|]. constructor; [split; [key|now apply good_str]|constructor].
Qed.
Lemma row_good x : Forall utf8 (pkg_texts (pv_pkg x)) -> Forall (sound f) (pv_vulns x ++ pv_ignored x) -> good (pkg_vulns_json oj x) = true.
Proof.
  intros U S. apply Forall_app in S as [S1 S2]. rewrite Forall_forall in S1, S2. apply good_obj. rewrite Forall_app. split; [now apply fields_good|].
  constructor; [|constructor; [|constructor]]; (split; [key|]); cbn [snd]; apply good_map; intros o I; apply F; auto.
Qed.
Lemma report_good r : sound_report f r -> good (result_json oj (RReport r)) = true.
Proof.
  intros [U S]. unfold report_texts in U. apply Forall_app in U as [U1 U2]. inversion U1 as [|? ? A U3]; subst. inversion U3 as [|? ? B _]; subst.
  apply good_obj. constructor; [split; [key|now apply good_str]|]. constructor; [split; [key|now apply good_str]|]. constructor; [|constructor].
  split; [key|]. cbn [snd]. apply good_map. intros x I. rewrite Forall_forall in S. apply row_good; [|auto]. exact (flat_forall _ _ _ U2 x I).
Qed.
Theorem results_written rs : Forall (sound_report f) rs ->
  exists j, Json.parse_text (results_json oj (map RReport rs)) = Some j /\ results_doc f j rs.
Proof.
  intros S. exists (JObj [("results", JArr (map (result_json oj) (map RReport rs)))]). split.
  - unfold results_json. apply text_print. apply good_obj. constructor; [|constructor]. split; [key|]. cbn [snd]. apply good_map. intros r I.
    apply in_map_iff in I as (x & <- & I). rewrite Forall_forall in S. apply report_good. auto.
  - eapply rs_doc. { apply mb_some with [] "results" []; [reflexivity|reflexivity| |]; intros (q & w & [] & _). }
    rewrite map_map. apply docs_map. eapply Forall_impl; [|exact S]. intros r [_ Sr]. now apply file_written.
Qed.
End Docs.

(** ** documents say one thing *)
Lemma member_fun l k a b : member l k a -> member l k b -> a = b.
Proof.
  intros A B. destruct A as [N|l1 k' v l2 E K N1 N2].
  - destruct B as [_|l1 k' v l2 -> K _ _]; [reflexivity|]. elim N. exists k', v. split; [apply in_or_app; right; now left|exact K].
  - symmetry. eapply member_in; [exact B| |exact K]. rewrite E. apply in_or_app. right. now left.
Qed.
Lemma says_fun v a b : says v a -> says v b -> a = b.
Proof. intros [->|[[->| ->] ->]] [E|[[E|E] ->]]; congruence. Qed.
Lemma osv_doc_fun f j a b : osv_doc f j a -> osv_doc f j b -> a = b.
Proof. intros A B. apply (osv_ok f) in A, B. congruence. Qed.
Lemma Forall2_fun {A B} (P : A -> B -> Prop) : (forall x a b, P x a -> P x b -> a = b) -> forall l m n, Forall2 P l m -> Forall2 P l n -> m = n.
Proof. intros H l m n F. revert n. induction F; intros n G; inversion G; subst; [reflexivity|]. f_equal; eauto. Qed.
Lemma row_fun f j a b : row_doc f j a -> row_doc f j b -> a = b.
Proof.
  intros A B. destruct A as [l r na ve co ec cm vs is A1 A2 A3 A4 A5 A6 A7 A8 A9 A10 A11 A12 A13 A14].
  inversion B as [l' r' na' ve' co' ec' cm' vs' is' B1 B2 B3 B4 B5 B6 B7 B8 B9 B10 B11 B12 B13 B14]; subst.
  pose proof (member_fun _ _ _ _ A1 B1) as <-. pose proof (member_fun _ _ _ _ A2 B2) as <-. pose proof (member_fun _ _ _ _ A3 B3) as <-.
  pose proof (member_fun _ _ _ _ A4 B4) as <-. pose proof (member_fun _ _ _ _ A5 B5) as <-. pose proof (member_fun _ _ _ _ A6 B6) as E1. pose proof (member_fun _ _ _ _ A7 B7) as E2.
  injection E1 as <-. injection E2 as <-. pose proof (Forall2_fun _ (osv_doc_fun f) _ _ _ A13 B13) as Q1. pose proof (Forall2_fun _ (osv_doc_fun f) _ _ _ A14 B14) as Q2.
  destruct r as [[n1 n2 n3 n4 n5] n6 n7], b as [[m1 m2 m3 m4 m5] m6 m7]. cbn in *.
  rewrite (says_fun _ _ _ A8 B8), (says_fun _ _ _ A9 B9), (says_fun _ _ _ A10 B10), (says_fun _ _ _ A11 B11), (says_fun _ _ _ A12 B12). congruence.
Qed.
Lemma file_fun f j a b : file_doc f j a -> file_doc f j b -> visible a = visible b.
Proof.
  intros A B. destruct A as [l r pa pr rows A1 A2 A3 A4 A5 A6]. inversion B as [l' r' pa' pr' rows' B1 B2 B3 B4 B5 B6]; subst.
  pose proof (member_fun _ _ _ _ A1 B1) as <-. pose proof (member_fun _ _ _ _ A2 B2) as <-. pose proof (member_fun _ _ _ _ A3 B3) as E. injection E as <-.
  unfold visible. now rewrite (says_fun _ _ _ A4 B4), (says_fun _ _ _ A5 B5), (Forall2_fun _ (row_fun f) _ _ _ A6 B6).
Qed.
Theorem results_fun f j rs rs' : results_doc f j rs -> results_doc f j rs' -> map visible rs = map visible rs'.
Proof.
  intros A B. destruct A as [l fs rs A1 A2]. inversion B as [l' fs' rs0 B1 B2]; subst. pose proof (member_fun _ _ _ _ A1 B1) as E. injection E as <-. clear A1 B1 B.
  revert rs' B2. induction A2 as [|x r fs rs P A2 IH]; intros rs' B2; inversion B2; subst; [reflexivity|]. cbn [map]. f_equal; [eapply file_fun; eauto|]. apply IH; auto.
Qed.

(** ** advisories written by the encoder *)
Lemma repeats_obj l : NoDup (map (fun kv => fold_key (fst kv)) l) -> Forall (fun kv => no_repeats (snd kv)) l -> no_repeats (JObj l).
Proof. intros N F. cbn [no_repeats]. split; [exact N|]. induction F as [|x l Fx F IH]; [exact I|]. cbn [fold_right]. split; [exact Fx|]. apply IH. now inversion N. Qed.
Lemma repeats_list l : Forall no_repeats l -> no_repeats (JArr l).
Proof. intros F. cbn [no_repeats]. induction F; cbn [fold_right]; auto. Qed.
Lemma repeats_map {A} (e : A -> json) l : (forall a, no_repeats (e a)) -> no_repeats (JArr (map e l)).
Proof. intros H. apply repeats_list, Forall_forall. intros j I. apply in_map_iff in I as (a & <- & _). apply H. Qed.
Lemma repeats_enc {A} nil (e : A -> json) l : nil_ok nil -> (forall a, no_repeats (e a)) -> no_repeats (enc_list nil e l).
Proof. intros N H. destruct l; [|now apply repeats_map]. cbn. destruct N as [->| ->]; exact I. Qed.
Lemma event_repeats e : no_repeats (enc_event e).
Proof.
  unfold enc_event, omit_empty. destruct (seqb_spec (introduced e) ""), (seqb_spec (fixed e) ""), (seqb_spec (last_affected e) ""); cbn [app];
    (apply repeats_obj; [keys|]); repeat (constructor; [exact I|]); constructor.
Qed.
Lemma range_repeats nil r : nil_ok nil -> no_repeats (enc_range nil r).
Proof.
  intros N. apply repeats_obj; [keys|]. constructor; [exact I|]. constructor; [|constructor]. cbn [snd]. apply repeats_enc; [exact N|exact event_repeats].
Qed.
Lemma affected_repeats nil a : nil_ok nil -> no_repeats (enc_affected nil a).
Proof.
  intros N. unfold enc_affected, omit_empty. destruct (seqb_spec (op_name (a_pkg a)) ""), (seqb_spec (op_eco (a_pkg a)) "");
    destruct (a_versions a) as [|v vs], (a_ranges a) as [|r rs]; cbn [app];
    (apply repeats_obj; [keys|]); repeat match goal with
    | |- Forall _ [] => constructor
    | |- Forall _ (_ :: _) => constructor
    | |- no_repeats (snd (_, JArr (map (enc_range nil) _))) => cbn [snd]; apply repeats_map; intros; now apply range_repeats
    | |- no_repeats (snd (_, JArr (map JStr _))) => cbn [snd]; apply repeats_map; intros; exact I
    | |- no_repeats (snd (_, JObj _)) => cbn [snd]; apply repeats_obj; [keys|]
    | |- no_repeats _ => exact I
    end.
Qed.
Lemma osv_repeats nil o : nil_ok nil -> no_repeats (enc_osv nil o).
Proof.
  intros N. unfold enc_osv. destruct (o_withdrawn o); cbn [app];
    (apply repeats_obj; [keys|]); repeat match goal with
    | |- Forall _ [] => constructor
    | |- Forall _ (_ :: _) => constructor
    | |- no_repeats (snd (_, enc_list nil JStr _)) => cbn [snd]; apply repeats_enc; [exact N|intros; exact I]
    | |- no_repeats (snd (_, enc_list nil (enc_affected nil) _)) => cbn [snd]; apply repeats_enc; [exact N|intros; now apply affected_repeats]
    | |- no_repeats _ => exact I
    end.
Qed.
Theorem encoder_faithful f nil : nil_ok nil -> faithful f (enc_osv nil).
Proof.
  intros N o [U T]. split; [apply good_osv; auto; intros t I; apply T; exact I|].
  apply (proj2 (osv_ok f)); [now apply osv_repeats|]. apply osv_back; [exact N|]. intros t I. apply T; exact I.
Qed.
Theorem results_apart f oj rs rs' : faithful f oj -> Forall (sound_report f) rs -> Forall (sound_report f) rs' ->
  results_json oj (map RReport rs) = results_json oj (map RReport rs') -> map visible rs = map visible rs'.
Proof.
  intros F A B E. destruct (results_written f oj F rs A) as (j & P & D). destruct (results_written f oj F rs' B) as (j' & P' & D').
  rewrite E in P. assert (j = j') as <- by congruence. eapply results_fun; eauto.
Qed.
