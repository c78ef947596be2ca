From Verif Require Import GoStr GoStrFacts GoSort GoSortFacts Types Path Lockfile LockfileSpec LockfileProofs MemDBSpec MemDBProofs ReportProofs Main MainSpec MainTrace.

Lemma split_encode a p : has_char ":" a = false -> split_parse_as (a +s+ ":" +s+ p) = (a, p).
Proof.
  intros H. unfold split_parse_as, contains. cbn [String.append].
  pose proof (cut_char_found ":" a p H) as C. unfold cut in *.
  destruct (cut_at ":" (a +s+ String ":" p)) as [[x y]|]; cbn; congruence.
Qed.
Lemma split_plain s : has_char ":" s = false -> split_parse_as s = ("", s).
Proof. intros H. unfold split_parse_as, contains. now rewrite (proj2 (cut_at_char_none ":" s) H). Qed.
Lemma split_means arg a p : means arg a p <-> split_parse_as arg = (a, p).
Proof.
  split.
  - intros [(H & -> & ->)|(H & ->)]; [now apply split_plain|now apply split_encode].
  - unfold split_parse_as, contains, cut. destruct (cut_at ":" arg) as [[x y]|] eqn:C; cbn; intros H; injection H as <- <-.
    + right. apply (cut_at_char ":") in C as [C1 C2]. auto.
    + left. apply (cut_at_char_none ":") in C. auto.
Qed.

Lemma recognised_iff name parse_as : name <> "" -> has_char "/" name = false ->
  (negb (seqb parse_as parse_as_csv_file)
   && (match fst (find_parser name parse_as) with None => true | Some _ => false end) = false <-> recognised name parse_as).
Proof.
  intros N S. unfold recognised, parse_as_csv_file.
  destruct (seqb_spec parse_as "csv-file") as [E|E]; cbn [negb andb]; [tauto|].
  pose proof (find_parser_spec name parse_as) as F. destruct (find_parser name parse_as) as [f n]. cbn [fst].
  destruct F as (F1 & F2 & F3).
  assert (Hn : (parse_as = "" -> n = name) /\ (parse_as <> "" -> n = parse_as)).
  { split; [|exact F1]. intros P. apply (F2 P). unfold file_name. auto. }
  destruct f as [g|]; split; try discriminate.
  - intros _. destruct (string_dec parse_as "") as [P|P]; right; [left|right]; (split; [exact P|]);
      [rewrite <- (proj1 Hn P)|rewrite <- (proj2 Hn P)]; apply F3; eauto.
  - reflexivity.
  - intros [H|[[P H]|[P H]]]; [contradiction| |]; exfalso;
      [rewrite <- (proj1 Hn P) in H|rewrite <- (proj2 Hn P) in H]; apply F3 in H as (g & H); discriminate.
Qed.

Lemma dir_lockfiles_spec dir parse_as entries :
  Forall (fun en => fst en <> "" /\ has_char "/" (fst en) = false) entries ->
  exists chosen, selects (fun en => snd en = false /\ recognised (fst en) parse_as) entries chosen
    /\ dir_lockfiles dir parse_as entries = map (fun en => path_join [dir; fst en]) chosen.
Proof.
  unfold dir_lockfiles. intros F. induction F as [|[name isd] entries [H1 H2] F (chosen & S & IH)].
  - exists []. split; [constructor|reflexivity].
  - cbn [flat_map fst snd] in *. destruct isd.
    + exists chosen. split; [|exact IH]. apply sel_skip; [|exact S]. cbn. intros [Q _]. discriminate.
    + pose proof (recognised_iff name parse_as H1 H2) as R. destruct (_ && _).
      * exists chosen. split; [|exact IH]. apply sel_skip; [|exact S]. cbn. intros [_ Q]. apply R in Q. discriminate.
      * exists ((name, false) :: chosen). split; [|cbn [map app fst]; now rewrite <- IH]. apply sel_take; [|exact S]. cbn. split; [reflexivity|]. now apply R.
Qed.

Lemma str_sorted S l : SorterOk S -> StronglySorted (fun a b => a = b \/ str_lt a b) (S string str_ltb l).
Proof.
  intros H. eapply StronglySorted_impl; [|apply (sorter_sorted S _ str_ltb l H str_ltb_swo)].
  intros a b Q. cbn in Q. destruct (str_ltb a b) eqn:L; [right; now apply str_lt_iff|left]. now apply str_ltb_total.
Qed.
Lemma sorter_nil S A less : SorterOk S -> S A less [] = [].
Proof. intros H. apply Permutation_nil, sorter_perm, H. Qed.
Lemma sorter_one S A less a : SorterOk S -> S A less [a] = [a].
Proof. intros H. apply Permutation_length_1_inv, sorter_perm, H. Qed.

Section Discover.
Variable E : Env.
Variable O : Opts.
Hypothesis SO : SorterOk (e_sort E).
Hypothesis EO : EntriesOk E.

(** nothing but messages *)
Definition calm_out (s s' : St) : Prop :=
  s_heap s' = s_heap s /\ s_dbs s' = s_dbs s /\ s_files s' = s_files s /\ s_cache s' = s_cache s /\ s_results s' = s_results s.
Lemma find_lockfiles_spec path parse_as s : exists l e s', find_lockfiles E path parse_as s = (Ok (l, e), s')
  /\ finds E path parse_as l e /\ calm_out s s'.
Proof.
  unfold find_lockfiles. destruct (e_stat E path) as [| | | |entries] eqn:K;
    unfold bind, ret, print_error, set_errored, emit; cbn; eexists _, _, _; (split; [reflexivity|]); (split; [|repeat split]).
  - rewrite sorter_nil by exact SO. now apply fi_unreadable.
  - rewrite sorter_nil by exact SO. apply fi_broken. auto.
  - rewrite sorter_nil by exact SO. apply fi_broken. auto.
  - rewrite sorter_one by exact SO. now apply fi_file.
  - destruct (dir_lockfiles_spec path parse_as entries (EO _ _ K)) as (chosen & S & ->).
    eapply fi_dir; eauto; [now apply sorter_perm|now apply str_sorted].
Qed.
Definition encode (q : string * string) : string := fst q +s+ ":" +s+ snd q.
Lemma find_all_loop_spec args : forall s, exists l e s', find_all_loop E O args s = (Ok (map encode l, e), s')
  /\ finds_all E (o_parse_as O) args l e /\ calm_out s s'.
Proof.
  induction args as [|arg args IH]; intros s; cbn [find_all_loop].
  - exists [], false, s. split; [reflexivity|]. split; [constructor|repeat split].
  - destruct (split_parse_as arg) as [a path] eqn:Sp.
    destruct (find_lockfiles_spec path (if seqb a "" then o_parse_as O else a) s) as (l1 & e1 & s1 & F1 & F2 & C1).
    destruct (IH s1) as (l2 & e2 & s2 & G1 & G2 & C2).
    exists (map (fun p => ((if seqb a "" then o_parse_as O else a), clean p)) l1 ++ l2), (e1 || e2), s2.
    split; [|split].
    + unfold bind. rewrite F1, G1. cbn [fst snd]. unfold ret. rewrite map_app, map_map. reflexivity.
    + econstructor; eauto. now apply split_means.
    + unfold calm_out in *. intuition congruence.
Qed.
Lemma find_all_spec s : o_parse_as O <> "csv-row" ->
  exists l e s', find_all_lockfiles E O s = (Ok (map encode l, e), s')
  /\ finds_all E (o_parse_as O) (o_args O) l e /\ calm_out s s'.
Proof.
  intros H. unfold find_all_lockfiles, parse_as_csv_row. rewrite (proj2 (seqb_neq _ _) H). apply find_all_loop_spec.
Qed.
End Discover.

(** the specification determines what is found, whatever the listing order *)
Definition same_entries (E E' : Env) : Prop := forall path,
  match e_stat E path, e_stat E' path with
  | KDir a, KDir b => Permutation a b
  | KDir _, _ | _, KDir _ => False
  | a, b => a = b
  end.
Lemma selects_perm {A} (P : A -> Prop) l l' : Permutation l l' -> forall c, selects P l c ->
  exists c', selects P l' c' /\ Permutation c c'.
Proof.
  induction 1 as [|a l l' H IH|a b l|l1 l2 l3 H1 IH1 H2 IH2]; intros c S1.
  - exists c. split; [exact S1|reflexivity].
  - inversion S1 as [|? ? c1 P1 T1|? ? c1 P1 T1]; subst; destruct (IH _ T1) as (c' & T & Q).
    + exists (a :: c'). split; [now apply sel_take|now constructor].
    + exists c'. split; [now apply sel_skip|exact Q].
  - inversion S1 as [|? ? c1 P1 T1|? ? c1 P1 T1]; subst; inversion T1 as [|? ? c3 P3 T3|? ? c3 P3 T3]; subst;
      eexists; (split; [first [apply sel_take; [eassumption|]|apply sel_skip; [eassumption|]];
                        first [apply sel_take; [eassumption|eassumption]|apply sel_skip; [eassumption|eassumption]]|]); try reflexivity.
    apply perm_swap.
  - destruct (IH1 _ S1) as (c2 & T2 & Q2). destruct (IH2 _ T2) as (c3 & T3 & Q3). exists c3. split; [exact T3|].
    now transitivity c2.
Qed.
Lemma str_lt_irrefl a : ~ str_lt a a.
Proof. intros H. apply str_lt_iff in H. now rewrite str_ltb_irrefl in H. Qed.
Lemma str_lt_trans a b c : str_lt a b -> str_lt b c -> str_lt a c.
Proof. rewrite <- !str_lt_iff. apply str_ltb_trans. Qed.
Lemma le_sorted_unique l1 l2 : Permutation l1 l2 ->
  StronglySorted (fun a b => a = b \/ str_lt a b) l1 -> StronglySorted (fun a b => a = b \/ str_lt a b) l2 -> l1 = l2.
Proof.
  intros H S1 S2. eapply (sorted_unique str_ltb); [exact str_ltb_swo| |exact H| |].
  - intros a b. apply str_ltb_total.
  - eapply StronglySorted_impl; [|exact S1]. intros a b Q. cbn beta in Q |- *. apply str_le_iff. destruct Q; auto.
  - eapply StronglySorted_impl; [|exact S2]. intros a b Q. cbn beta in Q |- *. apply str_le_iff. destruct Q; auto.
Qed.
Lemma finds_unique E E' path parse_as l e l' e' : same_entries E E' ->
  finds E path parse_as l e -> finds E' path parse_as l' e' -> l = l' /\ e = e'.
Proof.
  intros H F F'. specialize (H path).
  destruct F as [K|[K|K]|K|entries chosen l K S Pm St]; destruct F' as [K'|[K'|K']|K'|entries' chosen' l' K' S' Pm' St'];
    rewrite K, K' in H; try discriminate; try contradiction; auto.
  split; [|reflexivity]. apply le_sorted_unique; auto.
  destruct (selects_perm _ _ _ H _ S) as (c2 & S2 & P2). rewrite (selects_fun _ _ _ _ S2 S') in P2.
  rewrite <- Pm, <- Pm'. now apply Permutation_map.
Qed.
Lemma finds_all_unique E E' g args l e : finds_all E g args l e -> forall l' e', same_entries E E' ->
  finds_all E' g args l' e' -> l = l' /\ e = e'.
Proof.
  induction 1 as [|arg args a path pa l e rest er M Hpa F A IH]; intros l' e' SE A'; inversion A' as [|? ? a' path' pa' l2 e2 rest' er' M' Hpa' F' A2]; subst; [auto|].
  apply split_means in M, M'. rewrite M in M'. injection M' as <- <-.
  destruct (finds_unique _ _ _ _ _ _ _ _ SE F F') as [-> ->]. destruct (IH _ _ SE A2) as [-> ->]. auto.
Qed.
