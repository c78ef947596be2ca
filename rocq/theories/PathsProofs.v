(** Proofs about the paths given to a run: their order, and giving one more
    than once (C94). *)
From Verif Require Import GoStr GoStrFacts GoSort GoSortFacts GoMap Types Osv OsvSpec MemDB MemDBSpec Path Api ZipDB ZipSpec DirDB DirDBSpec DbConfig Configer Lockfile Csv Report ReportSpec Json Main MainSpec DiscoverProofs RunFacts EndSpec EndProofs AmongSpec AmongProofs.

(** what is found for a path among others is what is found for it *)
Lemma finds_all_in E g a l e : finds_all E g a l e -> forall q, In q l -> exists x l1 e1, In x a /\ finds_all E g [x] l1 e1 /\ In q l1.
Proof.
  induction 1 as [|arg args parser path pa l e rest er M P F A IH]; intros q I; [destruct I|].
  apply in_app_or in I as [I|I].
  - exists arg. eexists. eexists. split; [now left|]. split; [eapply fa_arg; eauto; apply fa_nil|]. apply in_or_app. now left.
  - destruct (IH q I) as (x & l1 & e1 & X & Y). exists x, l1, e1. split; [now right|exact Y].
Qed.
Lemma finds_one_in E g a l e x l1 e1 : finds_all E g a l e -> In x a -> finds_all E g [x] l1 e1 -> incl l1 l.
Proof.
  induction 1 as [|arg args parser path pa l e rest er M P F A IH]; intros I O; [destruct I|]. destruct I as [-> |I].
  - assert (Q : finds_all E g [x] (map (fun p => (pa, clean p)) l ++ []) (e || false)) by (eapply fa_arg; eauto; apply fa_nil).
    destruct (finds_all_unique E E g [x] _ _ O _ _ (same_entries_refl E) Q) as [-> _]. rewrite app_nil_r. apply incl_appl, incl_refl.
  - apply incl_appr. now apply IH.
Qed.
Lemma finds_incl E g a b l e l' e' : incl a b -> finds_all E g a l e -> finds_all E g b l' e' -> incl l l'.
Proof.
  intros I A B q Q. destruct (finds_all_in _ _ _ _ _ A q Q) as (x & l1 & e1 & X & F & Y).
  exact (finds_one_in _ _ _ _ _ _ _ _ B (I x X) F q Y).
Qed.
Lemma reads_incl E O fs m p p' rs rs' : incl p p' -> Forall2 (reads E O fs m) p rs -> Forall2 (reads E O fs m) p' rs' -> incl rs rs'.
Proof.
  intros I F F' r R. destruct (In_nth_error _ _ R) as (i & Hi).
  assert (X : exists x, In x p /\ reads E O fs m x r).
  { clear - F R. induction F as [|x y l l' H F IH]; [destruct R|]. destruct R as [-> |R]; [exists x; split; [now left|exact H]|].
    destruct (IH R) as (z & Z & W). exists z. split; [now right|exact W]. }
  destruct X as (x & X & H). apply I in X.
  clear - F' X H. induction F' as [|y r' l l' H' F IH]; [destruct X|]. destruct X as [-> |X]; [left|right; now apply IH].
  assert (Q : [r'] = [r]) by (eapply (all_reads_unique E O fs m [x]); constructor; auto; constructor). now injection Q.
Qed.

Section Paths.
Variables (E : Env) (O : Opts) (fs : string -> fread) (cache : files).
Hypothesis HS : SorterOk (e_sort E).
Hypothesis HI : IterOk (e_iter E).
Hypothesis HE : EntriesOk E.
Hypothesis NC : o_no_config O = false.
Hypothesis CH : checking O.
Hypothesis NR : o_parse_as O <> "csv-row".

(** the parts of two runs of which the paths of one are among those of the other *)
Lemma runs_incl a b ca sa cb sb : incl a b -> (forall x, In x b -> has_prefix x "csv-row:" = false) ->
  run E (with_args O a) (start fs cache) = (Ok ca, sa) -> ca = 0%Z \/ ca = 1%Z ->
  run E (with_args O b) (start fs cache) = (Ok cb, sb) -> cb = 0%Z \/ cb = 1%Z ->
  exists l1 e1 l2 e2 m rs1 rs2 n1 n2 d1 d2, ~ shared m
    /\ inputs E (with_args O a) l1 e1 /\ session E (with_args O a) fs cache m (map as_arg l1) rs1 n1 d1 (s_trace sa) /\ failures (s_trace sa) = []
    /\ inputs E (with_args O b) l2 e2 /\ session E (with_args O b) fs cache m (map as_arg l2) rs2 n2 d2 (s_trace sb) /\ failures (s_trace sb) = []
    /\ incl (usables rs1) (usables rs2)
    /\ (ca = 1%Z <-> Exists flawed (checks (s_trace sa))) /\ (cb = 1%Z <-> Exists flawed (checks (s_trace sb))).
Proof.
  intros Inc Np Ra Ha Rb Hb.
  destruct (fine_run E O fs cache HS HI HE NC CH NR a ca sa Ra Ha) as (l1 & e1 & m & rs1 & n1 & d1 & Kn & I1 & NS & M1 & S1 & F1 & X1).
  destruct (fine_run E O fs cache HS HI HE NC CH NR b cb sb Rb Hb) as (l2 & e2 & m2 & rs2 & n2 & d2 & _ & I2 & _ & M2 & S2 & F2 & X2).
  pose proof (mode_unique _ _ _ _ _ M1 M2) as <-.
  assert (G : forall q, In q l2 -> has_char ":" (fst q) = false /\ fst q <> "csv-row").
  { eapply finds_all_parsers; eauto. now apply known_colon. }
  assert (L : incl l1 l2) by (eapply finds_incl; eauto).
  assert (R : incl rs1 rs2).
  { eapply (reads_incl E (with_args O a) fs m (map as_arg l1) (map as_arg l2)).
    - intros x X. apply in_map_iff in X as (q & <- & Q). apply in_map. now apply L.
    - eapply ss_reads; eauto.
    - apply (all_reads_args E O b a); [exact G|]. eapply ss_reads; eauto. }
  exists l1, e1, l2, e2, m, rs1, rs2, n1, n2, d1, d2. split; [exact NS|]. split; [now apply in_found|]. split; [exact S1|]. split; [exact F1|].
  split; [now apply in_found|]. split; [exact S2|]. split; [exact F2|]. split; [|split; [exact X1|exact X2]].
  intros u U. apply in_flat_map in U as (r & Rr & Ur). apply in_flat_map. exists r. split; [now apply R|exact Ur].
Qed.

(** each lockfile checked is checked with more paths too *)
Theorem paths_kept a b ca sa cb sb : incl a b -> (forall x, In x b -> has_prefix x "csv-row:" = false) ->
  run E (with_args O a) (start fs cache) = (Ok ca, sa) -> ca = 0%Z \/ ca = 1%Z ->
  run E (with_args O b) (start fs cache) = (Ok cb, sb) -> cb = 0%Z \/ cb = 1%Z ->
  forall ck, In ck (checks (s_trace sa)) -> exists ck', In ck' (checks (s_trace sb)) /\ rp_lock (ck_report ck') = rp_lock (ck_report ck).
Proof.
  intros Inc Np Ra Ha Rb Hb ck K.
  destruct (runs_incl a b ca sa cb sb Inc Np Ra Ha Rb Hb) as (l1 & e1 & l2 & e2 & m & rs1 & rs2 & n1 & n2 & d1 & d2 & NS & I1 & S1 & F1 & I2 & S2 & F2 & U & _).
  destruct (proj1 (session_view _ _ _ _ _ _ _ _ _ _ _ I1 S1 F1 NC) ck K) as (c1 & x1 & V1).
  pose proof (vw_in _ _ _ _ _ _ _ _ _ V1) as J. apply U in J.
  destruct (proj2 (session_view _ _ _ _ _ _ _ _ _ _ _ I2 S2 F2 NC) _ _ J) as (ck3 & x3 & K3 & Q & V3). exists ck3. split; [exact K3|exact Q].
Qed.

Hypothesis St : steady E O cache.

(** more paths do not hide a failure *)
Theorem paths_grow a b ca sa cb sb : incl a b -> (forall x, In x b -> has_prefix x "csv-row:" = false) ->
  run E (with_args O a) (start fs cache) = (Ok ca, sa) -> ca = 0%Z \/ ca = 1%Z ->
  run E (with_args O b) (start fs cache) = (Ok cb, sb) -> cb = 0%Z \/ cb = 1%Z ->
  distinct_names E (with_args O b) fs -> comparable E (with_args O b) fs cache -> usual_ecosystems E (with_args O b) fs ->
  (forall ck, In ck (checks (s_trace sb)) -> ck_ignores ck = []) ->
  ca = 1%Z -> cb = 1%Z.
Proof.
  intros Inc Np Ra Ha Rb Hb Dn Cm Us Ig.
  destruct (runs_incl a b ca sa cb sb Inc Np Ra Ha Rb Hb) as (l1 & e1 & l2 & e2 & m & rs1 & rs2 & n1 & n2 & d1 & d2 & NS & I1 & S1 & F1 & I2 & S2 & F2 & U & X1 & X2).
  destruct (part_agrees E O fs cache HS St NC a b _ _ _ _ _ _ _ _ _ _ _ _ _ NS I1 S1 F1 I2 S2 F2 U Dn Cm Us Ig) as [A1 _].
  rewrite X1, X2, !Exists_exists. intros (ck & K & Fl). destruct (A1 ck K) as (ck3 & K3 & Y). exists ck3. split; [exact K3|now apply Y].
Qed.

(** the order of the paths, and how often each is given, make no difference *)
Theorem paths_same a b ca sa cb sb : (forall x, In x a <-> In x b) -> (forall x, In x b -> has_prefix x "csv-row:" = false) ->
  run E (with_args O a) (start fs cache) = (Ok ca, sa) -> ca = 0%Z \/ ca = 1%Z ->
  run E (with_args O b) (start fs cache) = (Ok cb, sb) -> cb = 0%Z \/ cb = 1%Z ->
  distinct_names E (with_args O b) fs -> comparable E (with_args O b) fs cache -> usual_ecosystems E (with_args O b) fs ->
  (forall ck, In ck (checks (s_trace sb)) -> ck_ignores ck = []) ->
  ca = cb.
Proof.
  intros Iff Np Ra Ha Rb Hb Dn Cm Us Ig.
  assert (Inc : incl a b) by (intros x X; now apply Iff).
  destruct (runs_incl a b ca sa cb sb Inc Np Ra Ha Rb Hb) as (l1 & e1 & l2 & e2 & m & rs1 & rs2 & n1 & n2 & d1 & d2 & NS & I1 & S1 & F1 & I2 & S2 & F2 & U & X1 & X2).
  destruct (part_agrees E O fs cache HS St NC a b _ _ _ _ _ _ _ _ _ _ _ _ _ NS I1 S1 F1 I2 S2 F2 U Dn Cm Us Ig) as [A1 A2].
  assert (Inc' : incl b a) by (intros x X; now apply Iff).
  assert (U' : incl (usables rs2) (usables rs1)).
  { destruct (runs_incl b a cb sb ca sa Inc' (fun x X => Np x (Inc x X)) Rb Hb Ra Ha) as (k2 & f2 & k1 & f1 & m' & qs2 & qs1 & nn2 & nn1 & dd2 & dd1 & _ & J2 & T2 & _ & J1 & T1 & _ & W & _).
    assert (Mq : m' = m) by (exact (eq_sym (mode_unique E O fs _ _ (proj1 (mode_args E O a fs m) (ss_mode _ _ _ _ _ _ _ _ _ _ S1)) (proj1 (mode_args E O a fs m') (ss_mode _ _ _ _ _ _ _ _ _ _ T1))))). subst m'.
    destruct (inputs_unique _ _ _ _ _ _ I1 J1) as [<- <-]. destruct (inputs_unique _ _ _ _ _ _ I2 J2) as [<- <-].
    rewrite (all_reads_unique _ _ _ _ _ _ _ (ss_reads _ _ _ _ _ _ _ _ _ _ S1) (ss_reads _ _ _ _ _ _ _ _ _ _ T1)).
    rewrite (all_reads_unique _ _ _ _ _ _ _ (ss_reads _ _ _ _ _ _ _ _ _ _ S2) (ss_reads _ _ _ _ _ _ _ _ _ _ T2)). exact W. }
  assert (Y : ca = 1%Z <-> cb = 1%Z).
  { rewrite X1, X2, !Exists_exists. split; intros (ck & K & Fl).
    - destruct (A1 ck K) as (ck3 & K3 & Y). exists ck3. split; [exact K3|now apply Y].
    - destruct (proj1 (session_view _ _ _ _ _ _ _ _ _ _ _ I2 S2 F2 NC) ck K) as (c & x & V).
      pose proof (vw_in _ _ _ _ _ _ _ _ _ V) as J. apply U' in J. destruct (A2 ck c x K V J) as (ck1 & K1 & Y). exists ck1. split; [exact K1|now apply Y]. }
  destruct Ha as [-> | ->], Hb as [-> | ->]; try reflexivity; destruct Y as [Y1 Y2]; [symmetry in Y2; now rewrite Y2|now rewrite Y1].
Qed.
End Paths.
