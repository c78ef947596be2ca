From Verif Require Import GoStr GoStrFacts GoSort GoMap Types Osv MemDB Path Api ZipDB DirDB DbConfig Configer Lockfile Csv Report Main MainSpec MainTrace MainProofs DiscoverProofs RunProofs RunFacts OfflineProofs EndSpec EndProofs Warnings FullRun FullRunSpec FullRunProofs FullTalkProofs FullNotedProofs.

Section Run.
Variable E : Env.
Variable V : Voice.
Variable O : Opts.
Ltac wstep H a s1 o1 o2 Hm := apply wbind_ok in H as (a & s1 & o1 & o2 & Hm & H & ->).
Lemma read_says fs mode : forall paths cfg s lfs s' o, read_all_full E V O paths (mode_local mode) cfg s = (Ok lfs, s', o) -> s_files s = fs ->
  forall p c, In p paths -> config_for E fs (snd (split_parse_as p)) mode (Some c) -> incl (map Note (parse_says V p)) o.
Proof.
  induction paths as [|p0 ps IH]; intros cfg s lfs s' o H F p c P CF; [destruct P|]. cbn [read_all_full] in H. cbv zeta in H.
  assert (FIN : forall cfg1 s1 o1, s_files s1 = fs ->
     wbind (notes (parse_says V p0)) (fun _ => wbind (up (lift (parse_lockfile E O p0))) (fun x => wbind (read_all_full E V O ps (mode_local mode) cfg1) (fun rest => wret (mkLFile (fst x) cfg1 (snd x) :: rest)))) s1 = (Ok lfs, s', o1) ->
     incl (map Note (parse_says V p)) o1).
  { intros cfg1 s1 o1 F1 W. wstep W u s2 o2 o3 Hn. injection Hn as _ <- <-. wstep W x s3 o4 o5 Hx. apply up_ok in Hx as [Hx _]. injection Hx as Hx <-.
    wstep W rest s4 o6 o7 Hr. destruct P as [<-|P]; [intros y Y; apply in_or_app; now left|].
    pose proof (IH _ _ _ _ _ Hr F1 _ _ P CF) as I. intros y Y. do 2 (apply in_or_app; right). apply in_or_app. left. auto. }
  destruct (mode_local mode) eqn:ML.
  - wstep H x s1 o1 o2 Hf. apply up_ok in Hf as [Hf _]. apply find_cfg_spec in Hf as [K1 Hf]. pose proof (still_files _ _ K1) as F1. rewrite F in F1, Hf.
    destruct x as [e|con].
    + wstep H rest s2 o3 o4 Hr. destruct P as [<-|P].
      * exfalso. destruct mode; [|discriminate]. inversion CF as [|c1 errs Q|]; subst. rewrite Q in Hf. discriminate.
      * pose proof (IH _ _ _ _ _ Hr F1 _ _ P CF) as I. intros y Y. apply in_or_app. right. apply in_or_app. left. auto.
    + wstep H c1 s2 o3 o4 Ha. apply up_ok in Ha as [Ha _]. unfold alloc in Ha. injection Ha as _ <-.
      eapply FIN in H; [|exact F1]. intros y Y. do 2 (apply in_or_app; right). auto.
  - wstep H c1 s1 o1 o2 Hl. apply up_ok in Hl as [Hl _]. unfold load_at, bind, get, ret in Hl. injection Hl as _ <-.
    destruct (negb _).
    + wstep H c2 s2 o3 o4 Ha. apply up_ok in Ha as [Ha _]. unfold alloc in Ha. injection Ha as _ <-.
      eapply FIN in H; [|exact F]. intros y Y. do 2 (apply in_or_app; right). auto.
    + eapply FIN in H; [|exact F]. intros y Y. apply in_or_app. right. auto.
Qed.
Hypothesis HS : SorterOk (e_sort E).
Hypothesis EO : EntriesOk E.
Theorem run_parsers_say fs cache code s' o l e mode : run_full E V O (start fs cache) = (Ok code, s', o) -> checking O -> known_as (o_parse_as O) ->
  inputs E O l e -> mode_of E O fs mode -> forall q c, In q l -> config_for E fs (snd (split_parse_as (as_arg q))) mode (Some c) ->
  incl (map Note (parse_says V (as_arg q))) o.
Proof.
  intros R (C1 & C2 & C3) KN IN MO q c Q CF. unfold run_full in R.
  destruct (run_body_full E V O (start fs cache)) as [[r1 s1] o1] eqn:B.
  assert (X : exists o2, o = o1 ++ o2 /\ r1 = Ok code).
  { destruct (o_json O); [destruct (up (print_json_results_full E V) s1) as [[r2 s2] o2]|]; injection R as -> _ <-; [eauto|exists []; now rewrite app_nil_r]. }
  destruct X as (o2 & -> & ->). clear R. assert (G : incl (map Note (parse_says V (as_arg q))) o1); [|intros y Y; apply in_or_app; left; auto].
  unfold run_body_full in B. rewrite C1, C2 in B. apply known_as_iff in KN. rewrite KN in B. cbn [negb] in B.
  wstep B x s2 o3 o4 Hf. apply up_ok in Hf as [Hf _]. pose proof (still_files _ _ (keeps_at _ _ _ _ _ (find_all_still E O) Hf)) as F2. cbn [start s_files] in F2.
  assert (XL : x = (map as_arg l, e)).
  { destruct (string_dec (o_parse_as O) "csv-row") as [Z|Z].
    - inversion IN; [|contradiction]; subst. unfold find_all_lockfiles, parse_as_csv_row in Hf. rewrite Z in Hf. cbn in Hf. now injection Hf as <- _.
    - destruct (find_all_spec E O HS EO (start fs cache) Z) as (l' & e' & s3 & F1 & F3 & _). rewrite F1 in Hf. injection Hf as <- _.
      destruct (inputs_unique _ _ _ _ _ _ IN (in_found E O l' e' Z F3)) as [<- <-]. reflexivity. }
  subst x. cbn [fst snd] in B. destruct (Nat.eqb_spec (List.length (map as_arg l)) 0) as [Z|_]; [destruct l; [destruct Q|discriminate]|].
  assert (RF : forall cfg s3 o5, s_files s3 = fs -> run_files_full E V O (map as_arg l) (mode_local mode) cfg s3 = (Ok code, s1, o5) -> incl (map Note (parse_says V (as_arg q))) o5).
  { intros cfg s3 o5 F3 W. unfold run_files_full in W. wstep W lfs s4 o6 o7 Hr. pose proof (read_says _ _ _ _ _ _ _ _ Hr F3 _ _ (in_map as_arg _ _ Q) CF) as I.
    intros y Y. apply in_or_app. left. auto. }
  unfold run_config_full in B. rewrite C3 in B. cbv zeta in B.
  assert (AL : forall con ml s3 o5, s_files s3 = fs -> ml = mode_local mode -> wbind (up (alloc con)) (fun cfg => run_files_full E V O (map as_arg l) ml cfg) s3 = (Ok code, s1, o5) -> incl (map Note (parse_says V (as_arg q))) o5).
  { intros con ml s3 o5 F3 -> W. wstep W cfg s4 o6 o7 Ha. apply up_ok in Ha as [Ha _]. unfold alloc in Ha. injection Ha as _ <-. eapply RF in W; [|exact F3]. intros y Y. apply in_or_app. right. auto. }
  assert (G : incl (map Note (parse_says V (as_arg q))) o4); [|intros y Y; apply in_or_app; right; auto].
  destruct MO as [N|N Z|con errs N Z LC]; rewrite N in B; cbn [negb andb] in B.
  - eapply AL; [exact F2| |exact B]. reflexivity.
  - rewrite Z in B. cbn [seqb] in B. eapply AL; [exact F2| |exact B]. reflexivity.
  - destruct (seqb_spec (o_config O) "") as [|_]; [contradiction|]. cbn [negb] in B. wstep B x s3 o5 o6 Hl. apply up_ok in Hl as [Hl _]. apply load_cfg_spec in Hl as [K Hl].
    rewrite F2, LC in Hl. subst x. assert (F3 : s_files s3 = fs) by (rewrite <- F2; apply (still_files _ _ K)). eapply AL in B; [|exact F3|reflexivity]. intros y Y. apply in_or_app. right. auto.
Qed.
End Run.
