From Verif Require Import GoStr GoStrFacts GoMap GoSort Types Json JsonFacts JsonRound JsonSpec JsonGrammar OsvJson OsvJsonSpec OsvJsonProofs OsvJsonRound Lockfile Report ReportDocSpec ReportDocProofs
  Main MainSpec RunProofs RunFacts RunEnd ListProofs ListDocSpec.

Section Docs.
Variable oj : OSV -> json.
Lemma pkg_written p : pkg_doc (JObj (pkg_fields p)) p.
Proof.
  destruct p as [n v c e m]. unfold pkg_fields, omit. cbn [p_name p_version p_commit p_eco p_cmp].
  destruct (seqb_spec c "") as [-> |_], (seqb_spec e "") as [-> |_], (seqb_spec m "") as [-> |_]; cbn [app];
    match goal with |- pkg_doc (JObj ?l) _ =>
      assert (N : NoDup (map (fun kv => fold_key (fst kv)) l)) by keys;
      eapply (pd_doc l _ (lookup l "name") (lookup l "version") (lookup l "commit") (lookup l "ecosystem") (lookup l "compareas"));
      try (apply lookup_member; exact N);
      first [exact (said _) | exact left_out]
    end.
Qed.
Lemma lock_written l : lock_doc (result_json oj (RLock l)) l.
Proof.
  unfold result_json. match goal with |- lock_doc (JObj ?l) _ => set (L := l); assert (N : NoDup (map (fun kv => fold_key (fst kv)) L)) by (unfold L; keys) end.
  eapply (kd_doc L l (lookup L "filepath") (lookup L "parsedas")); try (apply lookup_member; exact N); try exact (lookup_member L "packages" N); try exact (said _).
  apply docs_map. apply Forall_forall. intros p _. apply pkg_written.
Qed.
Lemma lock_good l : Forall utf8 (lock_texts l) -> good (result_json oj (RLock l)) = true.
Proof.
  intros U. unfold lock_texts in U. apply Forall_app in U as [U1 U2]. inversion U1 as [|? ? A U3]; subst. inversion U3 as [|? ? B _]; subst.
  apply good_obj. constructor; [split; [key|now apply good_str]|]. constructor; [split; [key|now apply good_str]|]. constructor; [|constructor].
  split; [key|]. cbn [snd]. apply good_map. intros p I. apply good_obj. apply fields_good. exact (flat_forall _ _ _ U2 p I).
Qed.
Lemma listing_written ls : Forall (fun l => Forall utf8 (lock_texts l)) ls ->
  exists j, json_text (results_json oj (map RLock ls)) j /\ listing_doc j ls.
Proof.
  intros S. exists (JObj [("results", JArr (map (result_json oj) (map RLock ls)))]). split.
  - apply text_iff. unfold results_json. apply text_print. apply good_obj. constructor; [|constructor]. split; [key|]. cbn [snd]. apply good_map. intros r I.
    apply in_map_iff in I as (x & <- & I). rewrite Forall_forall in S. apply lock_good. auto.
  - eapply sd_doc. { apply mb_some with [] "results" []; [reflexivity|reflexivity| |]; intros (q & w & [] & _). }
    rewrite map_map. apply docs_map. apply Forall_forall. intros l _. apply lock_written.
Qed.
End Docs.
Lemma pkg_doc_fun j a b : pkg_doc j a -> pkg_doc j b -> a = b.
Proof.
  intros A B. destruct A as [l p na ve co ec cm A1 A2 A3 A4 A5 A6 A7 A8 A9 A10]. inversion B as [l' p' na' ve' co' ec' cm' B1 B2 B3 B4 B5 B6 B7 B8 B9 B10]; subst.
  pose proof (member_fun _ _ _ _ A1 B1) as <-. pose proof (member_fun _ _ _ _ A2 B2) as <-. pose proof (member_fun _ _ _ _ A3 B3) as <-.
  pose proof (member_fun _ _ _ _ A4 B4) as <-. pose proof (member_fun _ _ _ _ A5 B5) as <-. destruct p, b. cbn in *.
  rewrite (says_fun _ _ _ A6 B6), (says_fun _ _ _ A7 B7), (says_fun _ _ _ A8 B8), (says_fun _ _ _ A9 B9), (says_fun _ _ _ A10 B10). reflexivity.
Qed.
Lemma lock_doc_fun j a b : lock_doc j a -> lock_doc j b -> a = b.
Proof.
  intros A B.
  assert (G : forall l (x y : Lockfile) pa pb aa ab, member l "filepath" pa -> member l "filepath" pb -> member l "parsedas" aa -> member l "parsedas" ab ->
    says pa (lf_path x) -> says pb (lf_path y) -> says aa (lf_as x) -> says ab (lf_as y) -> lf_pkgs x = lf_pkgs y -> x = y).
  { intros l x y pa pb aa ab M1 M2 M3 M4 S1 S2 S3 S4 Q. pose proof (member_fun _ _ _ _ M1 M2) as <-. pose proof (member_fun _ _ _ _ M3 M4) as <-.
    destruct x, y. cbn in *. rewrite (says_fun _ _ _ S1 S2), (says_fun _ _ _ S3 S4), Q. reflexivity. }
  destruct A as [l lf pa pr rows A1 A2 A3 A4 A5 A6|l lf pa pr A1 A2 A3 A4 A5 A6]; inversion B as [l' lf' pa' pr' rows' B1 B2 B3 B4 B5 B6|l' lf' pa' pr' B1 B2 B3 B4 B5 B6]; subst;
    pose proof (member_fun _ _ _ _ A3 B3) as Q; try discriminate Q; eapply (G l lf b pa pa' pr pr'); eauto; [|congruence].
  injection Q as <-. exact (Forall2_fun _ pkg_doc_fun _ _ _ A6 B6).
Qed.
Lemma listing_fun j a b : listing_doc j a -> listing_doc j b -> a = b.
Proof.
  intros A B. destruct A as [l fs ls A1 A2]. inversion B as [l' fs' ls' B1 B2]; subst. pose proof (member_fun _ _ _ _ A1 B1) as Q. injection Q as <-.
  exact (Forall2_fun _ lock_doc_fun _ _ _ A2 B2).
Qed.
Lemma list_document E O fs cache code s' : SorterOk (e_sort E) -> IterOk (e_iter E) -> EntriesOk E -> o_json O = true -> listing O -> known_as (o_parse_as O) ->
  run E O (start fs cache) = (Ok code, s') ->
  exists l e rs, inputs E O l e /\ listed_as E O l rs
    /\ (Forall (fun l => Forall utf8 (lock_texts l)) (given rs) ->
        exists text j, stdout (s_trace s') = [text] /\ json_text text j /\ listing_doc j (given rs)).
Proof.
  intros HS HI HE J HL KN H.
  assert (G : forall ls, shown E O (s_trace s') (map RLock ls) -> Forall (fun l => Forall utf8 (lock_texts l)) ls ->
    exists text j, stdout (s_trace s') = [text] /\ json_text text j /\ listing_doc j ls).
  { intros ls [_ D] U. rewrite J in D. destruct (listing_written (e_osv_json E) ls U) as (j & P & R).
    destruct (json_stdout E O fs cache _ s' HI J H) as (n & d & T & S1 & S2 & _).
    assert (Q : messages KDoc (s_trace s') = [d]) by (rewrite T, messages_app, S2; reflexivity).
    exists d, j. split; [rewrite T; unfold stdout in *; rewrite flat_map_app, S1; reflexivity|]. split; [congruence|exact R]. }
  destruct (run_list E O HS HI HE fs cache code s' HL H) as [N _ _|e _ I _ S|l e rs code _ I _ L S _ _]; [contradiction|exists [], e, []|exists l, e, rs].
  - split; [exact I|]. split; [constructor|]. intros U. now apply G.
  - split; [exact I|]. split; [exact L|]. intros U. now apply G.
Qed.
