From Coq Require Import Lia.
From Verif Require Import GoStr GoStrFacts GoSort GoSortFacts Types Json Osv MemDB Path PathFacts Api ZipDB DirDB DbConfig Configer GoMap Lockfile Csv Ecosystems Report Main MainSpec MainProofs RunProofs DiscoverProofs AmongProofs RunEnd RunFacts SpellSpec.

Lemma sp_unf {A B} (m : M A) (f : A -> M B) s : bind m f s = match m s with (Ok a, s1) => f a s1 | (Panic, s1) => (Panic, s1) end.
Proof. reflexivity. Qed.
Section Spell.
Variables (E : Env) (O : Opts) (args : list string).
Let O' := spelled O args.
Definition plain (p : string) : Prop := fst (split_parse_as p) <> "csv-row".
Lemma parse_same p : plain p -> parse_lockfile E O' p = parse_lockfile E O p.
Proof.
  unfold plain, parse_lockfile. destruct (split_parse_as p) as [a q]. cbn [fst]. intros H. unfold parse_as_csv_row. now rewrite (proj2 (seqb_neq _ _) H).
Qed.
Lemma read_same cl : forall paths cfg s, Forall plain paths -> read_all E O' paths cl cfg s = read_all E O paths cl cfg s.
Proof.
  induction paths as [|p ps IH]; intros cfg s F; [reflexivity|]. inversion F as [|? ? P1 P2]; subst. cbn [read_all]. cbv zeta.
  assert (Fin : forall c t, (x <- lift (parse_lockfile E O' p) ; rest <- read_all E O' ps cl c ; ret (mkLFile (fst x) c (snd x) :: rest)) t
    = (x <- lift (parse_lockfile E O p) ; rest <- read_all E O ps cl c ; ret (mkLFile (fst x) c (snd x) :: rest)) t).
  { intros c t. rewrite (parse_same p P1), !sp_unf. destruct (lift (parse_lockfile E O p) t) as [[x|] t1]; [|reflexivity]. rewrite !sp_unf. now rewrite IH. }
  destruct cl.
  - rewrite !sp_unf. destruct (find_cfg E _ s) as [[[e|c]|] s1]; [| |reflexivity].
    + rewrite !sp_unf. now rewrite IH.
    + rewrite !sp_unf. destruct (alloc c s1) as [[i|] s2]; [|reflexivity]. apply Fin.
  - rewrite !sp_unf. destruct (load_at cfg s) as [[c|] s1]; [|reflexivity]. destruct (negb (seqb (cf_path c) "")); [|apply Fin].
    rewrite !sp_unf. destruct (alloc c s1) as [[i|] s2]; [|reflexivity]. apply Fin.
Qed.
Lemma files_same paths cl cfg s : Forall plain paths -> run_files E O' paths cl cfg s = run_files E O paths cl cfg s.
Proof.
  intros F. unfold run_files. rewrite (sp_unf (read_all E O' paths cl cfg)), (sp_unf (read_all E O paths cl cfg)). rewrite (read_same cl paths cfg s F). reflexivity.
Qed.
Lemma config_same paths s : Forall plain paths -> run_config E O' paths s = run_config E O paths s.
Proof.
  intros F. unfold run_config. cbv zeta. change (o_list_pkgs O') with (o_list_pkgs O). change (o_no_config O') with (o_no_config O). change (o_config O') with (o_config O).
  destruct (o_list_pkgs O).
  - rewrite !sp_unf. destruct (alloc _ s) as [[i|] s1]; [|reflexivity]. now apply files_same.
  - destruct (negb (o_no_config O) && negb (seqb (o_config O) "")).
    + rewrite !sp_unf. destruct (load_cfg E (o_config O) s) as [[[e|c]|] s1]; [reflexivity| |reflexivity].
      rewrite !sp_unf. destruct (alloc c s1) as [[i|] s2]; [|reflexivity]. now apply files_same.
    + rewrite !sp_unf. destruct (alloc _ s) as [[i|] s1]; [|reflexivity]. now apply files_same.
Qed.
(** what is needed of the search *)
Lemma run_same s : known_as (o_parse_as O) -> List.length args = List.length (o_args O) \/ (exists x t, find_all_lockfiles E O s = (Ok x, t) /\ fst x <> []) ->
  find_all_lockfiles E O' s = find_all_lockfiles E O s ->
  (forall x t, find_all_lockfiles E O s = (Ok x, t) -> Forall plain (fst x)) -> run E O' s = run E O s.
Proof.
  intros K L F P. assert (B : run_body E O' s = run_body E O s).
  { unfold run_body. change (o_version O') with (o_version O). destruct (o_version O); [reflexivity|]. change (o_list_eco O') with (o_list_eco O). destruct (o_list_eco O); [unfold print_known_ecosystems; generalize known_ecosystems; intros ke; reflexivity|].
    rewrite (proj2 (known_as_iff (o_parse_as O)) K), (proj2 (known_as_iff (o_parse_as O')) (or_introl eq_refl)). cbn [negb].
    rewrite !sp_unf, F. destruct (find_all_lockfiles E O s) as [[x|] t] eqn:Q; [|reflexivity].
    destruct (Nat.eqb (List.length (fst x)) 0) eqn:N.
    - destruct L as [L|(y & u & L1 & L2)].
      + change (o_args O') with args. now rewrite L.
      + injection L1 as <- <-. destruct (fst x); [contradiction|discriminate].
    - apply config_same. now apply (P x t). }
  unfold run. rewrite B. reflexivity.
Qed.

(** ** the search *)
Lemma found_plain g : g <> "csv-row" -> has_char ":" g = false -> o_parse_as O = g -> forall l, (forall arg path, In arg l -> ~ means arg "csv-row" path) ->
  forall s x t, find_all_loop E O l s = (Ok x, t) -> Forall plain (fst x).
Proof.
  intros G1 G2 Q. induction l as [|arg l IH]; intros H s x t R; cbn [find_all_loop] in R; [injection R as <- _; constructor|].
  destruct (split_parse_as arg) as [a path] eqn:Sp. apply split_means in Sp. rewrite sp_unf in R. destruct (find_lockfiles E path _ s) as [[u|] s1]; [|discriminate].
  rewrite sp_unf in R. destruct (find_all_loop E O l s1) as [[v|] s2] eqn:R2; [|discriminate]. injection R as <- _. cbn [fst]. apply Forall_app. split.
  - apply Forall_forall. intros y Y. apply in_map_iff in Y as (q & <- & _). unfold plain. cbv beta. destruct (seqb_spec a "") as [N|N].
    + rewrite Q. change (fst (split_parse_as (g +s+ ":" +s+ clean q)) <> "csv-row"). rewrite split_encode by exact G2. exact G1.
    + change (fst (split_parse_as (a +s+ ":" +s+ clean q)) <> "csv-row"). rewrite split_encode; [cbn; intros ->; exact (H arg path (or_introl eq_refl) Sp)|]. destruct Sp as [(_ & Z & _)|[Z _]]; [contradiction|exact Z].
  - apply (IH (fun b p I => H b p (or_intror I)) s1 v s2 R2).
Qed.
Lemma found_all_plain : known_as (o_parse_as O) -> no_rows O -> forall s x t, find_all_lockfiles E O s = (Ok x, t) -> Forall plain (fst x).
Proof.
  intros K [N1 N2] s x t R. unfold find_all_lockfiles, parse_as_csv_row in R. rewrite (proj2 (seqb_neq _ _) N1) in R.
  eapply found_plain; [exact N1|now apply known_colon|reflexivity|exact N2|exact R].
Qed.
Lemma search_explicit : has_char ":" (o_parse_as O) = false -> forall l l', Forall2 (explicit (o_parse_as O)) l l' ->
  forall s, find_all_loop E O' l' s = find_all_loop E O l s.
Proof.
  intros G. induction 1 as [|arg arg' l l' X F IH]; intros s; [reflexivity|]. cbn [find_all_loop]. destruct X as [a p X N|p X].
  - destruct X as [(_ & Z & _)|[Z ->]]; [contradiction|]. rewrite split_encode by exact Z. rewrite (proj2 (seqb_neq _ _) N). rewrite !sp_unf. destruct (find_lockfiles E p a s) as [[u|] s1]; [|reflexivity].
    rewrite !sp_unf. now rewrite IH.
  - apply split_means in X. rewrite X, split_encode by exact G. change (seqb "" "") with true. cbv iota. change (o_parse_as O') with "".
    assert (Y : (if seqb (o_parse_as O) "" then "" else o_parse_as O) = o_parse_as O) by (destruct (seqb_spec (o_parse_as O) ""); congruence). rewrite Y.
    rewrite !sp_unf. destruct (find_lockfiles E p (o_parse_as O) s) as [[u|] s1]; [|reflexivity]. rewrite !sp_unf. now rewrite IH.
Qed.
Lemma explicit_run s : known_as (o_parse_as O) -> no_rows O -> Forall2 (explicit (o_parse_as O)) (o_args O) args -> run E O' s = run E O s.
Proof.
  intros K N F. apply run_same; [exact K|left; clear -F; induction F; cbn; congruence| |now apply found_all_plain].
  unfold find_all_lockfiles. change (o_parse_as O') with "". change (o_args O') with args. change (seqb "" parse_as_csv_row) with false. cbv iota.
  unfold parse_as_csv_row. rewrite (proj2 (seqb_neq _ _) (proj1 N)). apply search_explicit; [now apply known_colon|exact F].
Qed.
(** ** the files found *)
Lemma search_quiet : forall l s x t, find_all_loop E O l s = (Ok (x, false), t) -> t = s.
Proof.
  induction l as [|arg l IH]; intros s x t R; cbn [find_all_loop] in R; [now injection R|]. destruct (split_parse_as arg) as [a path].
  rewrite sp_unf in R. destruct (find_lockfiles E path _ s) as [[u|] s1] eqn:R1; [|discriminate].
  rewrite sp_unf in R. destruct (find_all_loop E O l s1) as [[[v1 v2]|] s2] eqn:R2; [|discriminate]. injection R as _ B <-. cbn [snd] in B. apply orb_false_iff in B as [B1 B2]. subst v2.
  apply IH in R2. subst s2. unfold find_lockfiles in R1. destruct (e_stat E path); cbn in R1; injection R1 as <- <-; try reflexivity. discriminate.
Qed.
Lemma search_files : SorterOk (e_sort E) -> forall l, Forall (fun q => split_parse_as (as_arg q) = q /\ clean (snd q) = snd q /\ e_stat E (snd q) = KFile) l ->
  forall s, find_all_loop E O' (map as_arg l) s = (Ok (map as_arg l, false), s).
Proof.
  intros SO. induction 1 as [|[a p] l (Sp & C & K) F IH]; intros s; [reflexivity|]. cbn [map find_all_loop]. cbn [snd] in C, K. rewrite Sp.
  change (o_parse_as O') with "". assert (Y : (if seqb a "" then "" else a) = a) by (destruct (seqb_spec a ""); congruence). rewrite Y.
  assert (L : find_lockfiles E p a s = (Ok ([p], false), s)).
  { unfold find_lockfiles. rewrite K. cbn. destruct (SO string str_ltb [p]) as [Pm _]. apply Permutation_length_1_inv in Pm. now rewrite Pm. }
  rewrite sp_unf, L. cbv iota. rewrite sp_unf, IH. cbn. rewrite C. reflexivity.
Qed.
End Spell.
Lemma found_clean E g a l e : finds_all E g a l e -> Forall (fun q => clean (snd q) = snd q) l.
Proof.
  induction 1 as [|arg args parser path pa l e rest er M P F A IH]; [constructor|]. apply Forall_app. split; [|exact IH].
  apply Forall_forall. intros q Q. apply in_map_iff in Q as (x & <- & _). apply clean_idem.
Qed.
Lemma files_run E O l s : SorterOk (e_sort E) -> EntriesOk E -> known_as (o_parse_as O) -> no_rows O ->
  finds_all E (o_parse_as O) (o_args O) l false -> l <> [] -> (forall q, In q l -> e_stat E (snd q) = KFile) ->
  run E (spelled O (map as_arg l)) s = run E O s.
Proof.
  intros SO EO K N F NE ST. pose proof N as [N1 N2]. destruct (discovery E O SO EO s N1) as (l1 & e1 & t & R & F1).
  destruct (finds_all_unique E E _ _ _ _ F _ _ (same_entries_refl E) F1) as [<- <-].
  assert (R' := R). unfold find_all_lockfiles, parse_as_csv_row in R'. rewrite (proj2 (seqb_neq _ _) N1) in R'. apply search_quiet in R'. subst t.
  apply run_same; [exact K| | |now apply found_all_plain].
  - right. exists (map as_arg l, false), s. split; [exact R|]. destruct l; [contradiction|discriminate].
  - rewrite R. unfold find_all_lockfiles. change (seqb (o_parse_as (spelled O (map as_arg l))) parse_as_csv_row) with false. cbv iota.
    change (o_args (spelled O (map as_arg l))) with (map as_arg l). apply search_files; [exact SO|].
    pose proof (found_round _ _ _ _ _ F (known_colon _ K)) as A. pose proof (found_clean _ _ _ _ _ F) as B. rewrite Forall_forall in A, B |- *. auto.
Qed.
