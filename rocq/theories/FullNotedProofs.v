From Verif Require Import GoStr GoStrFacts GoSort GoMap Types Osv OsvSpec OsvProofs MemDB MemDBSpec MemDBProofs Path Api ZipDB ZipSpec ZipProofs DirDB DirDBSpec DirDBProofs DbConfig Configer ConfigSpec ConfigProofs Lockfile Csv Report Main MainSpec MainTrace MainProofs DiscoverProofs RunProofs RunFacts RunEnd OfflineProofs EndSpec EndProofs Warnings WarningsSpec WarningsProofs FullRun FullRunSpec FullRunProofs FullTalkProofs.

Section Run.
Variable E : Env.
Variable V : Voice.
Variable O : Opts.
Hypothesis HS : SorterOk (e_sort E).
Notation Evolves := (evolves (e_sort E) (e_sem E)).
Lemma wbind_ok {A B} (m : W A) (g : A -> W B) s b s' o : wbind m g s = (Ok b, s', o) ->
  exists a s1 o1 o2, m s = (Ok a, s1, o1) /\ g a s1 = (Ok b, s', o2) /\ o = o1 ++ o2.
Proof. intros H. apply wbind_inv in H as [H|[_ H]]; [exact H|discriminate]. Qed.
Lemma up_ok {A} (m : M A) s a s1 o : up m s = (Ok a, s1, o) -> m s = (Ok a, s1) /\ forall t, ~ In (Note t) o.
Proof. unfold up. destruct (m s) as [r s']. intros [= -> -> <-]. split; [reflexivity|]. intros t I. apply in_map_iff in I as (e & Q & _). discriminate. Qed.
Ltac wstep H a s1 o1 o2 Hm := apply wbind_ok in H as (a & s1 & o1 & o2 & Hm & H & ->).
(** a database, as it is at some time, is consulted about these packages *)
Definition consulted (d0 : DB) (pkgs : list Pkg) (o : list out) : Prop :=
  exists k d r d', Evolves d0 d /\ check_db E k d pkgs = Ok (r, d') /\ incl (map Note (db_says E d pkgs)) o.
Lemma consulted_app d0 pkgs a b c : consulted d0 pkgs b -> consulted d0 pkgs (a ++ b ++ c).
Proof. intros (k & d & r & d' & H1 & H2 & H3). exists k, d, r, d'. split; [exact H1|]. split; [exact H2|]. intros x X. apply in_or_app. right. apply in_or_app. left. auto. Qed.
Lemma consults_dbs k lockf ds0 : forall use s raw s' o, check_dbs_full E k use lockf s = (Ok raw, s', o) -> Forall2 Evolves ds0 (s_dbs s) ->
  Forall2 Evolves ds0 (s_dbs s') /\ (forall i d0, In i use -> nth_error ds0 i = Some d0 -> consulted d0 (lf_pkgs lockf) o)
  /\ forall cfg ids ign rw rep, ~ In (Did (ECheck cfg ids ign rw rep)) o.
Proof.
  induction use as [|i use IH]; intros s raw s' o H F; cbn [check_dbs_full] in H.
  - unfold wret, up, ret in H. rewrite skipn_all in H. injection H as <- <- <-. split; [exact F|]. split; [intros i d0 []|intros ? ? ? ? ? []].
  - wstep H ds s1 o1 o2 Hg. unfold up, get in Hg. rewrite skipn_all in Hg. injection Hg as <- <- <-. cbn [map app].
    destruct (nth_error (s_dbs s) i) as [d|] eqn:N; [|unfold up, lift in H; discriminate].
    wstep H u s2 o1 o3 He. assert (X2 : s_dbs s2 = s_dbs s /\ forall cfg ids ign rw rep, ~ In (Did (ECheck cfg ids ign rw rep)) o1).
    { unfold up in He. destruct d; unfold ret, emit in He; cbn [s_trace] in He; rewrite ?skipn_all, ?skipn_all_app in He; injection He as <- <- <-; split; auto; intros ? ? ? ? ? [];
      [discriminate|assumption]. }
    destruct X2 as [D2 C2]. clear He.
    wstep H u1 s3 o1' o4 Hn. injection Hn as _ <- <-.
    wstep H x s4 o1'' o5 Hc. unfold up, lift in Hc. rewrite skipn_all in Hc. injection Hc as Hc <- <-. destruct x as [r d']. cbn [map app].
    wstep H u2 s5 o1''' o6 Hs. unfold up, set_dbs in Hs. cbn [s_trace] in Hs. rewrite skipn_all in Hs. injection Hs as _ <- <-. cbn [map app].
    destruct (MainProofs.Forall2_nth _ _ _ _ _ F N) as (d0 & N0 & V0). destruct (check_db_answers E k d0 d _ _ _ V0 Hc) as [V1 _].
    match type of H with _ ?t = _ => set (s5 := t) in H end. assert (F5 : Forall2 Evolves ds0 (s_dbs s5)) by (cbn; eapply upd_Forall2; eauto).
    assert (Z : exists o7 o8, o6 = o7 ++ o8 /\ (forall cfg ids ign rw rep, ~ In (Did (ECheck cfg ids ign rw rep)) o7) /\ exists raw' s6 o9, s_dbs s6 = s_dbs s5 /\ check_dbs_full E k use lockf s6 = (Ok raw', s', o9) /\ (o8 = o9 \/ o8 = o9 ++ [])).
    { destruct r as [e|results].
      - wstep H u3 s6 o7 o8 Hp. exists o7, o8. split; [reflexivity|]. unfold up, print_error, bind, emit, set_errored in Hp. cbn in Hp. rewrite skipn_all_app in Hp. injection Hp as _ <- <-.
        split; [intros ? ? ? ? ? [Q|[]]; discriminate|]. eexists _, _, o8. split; [|split; [exact H|auto]]. reflexivity.
      - wstep H rest s6 o7 o8 Hp. unfold wret, up, ret in H. rewrite skipn_all in H. injection H as <- <- <-. exists [], (o7 ++ []). split; [reflexivity|]. split; [intros ? ? ? ? ? []|]. eauto 9. }
    destruct Z as (o7 & o8 & -> & C7 & raw' & s6 & o9 & D6 & H6 & Q8).
    assert (o8 = o9) as -> by (destruct Q8 as [Q8|Q8]; now rewrite ?app_nil_r in Q8). clear Q8.
    destruct (IH _ _ _ _ H6) as (F' & C' & E'); [now rewrite D6|]. split; [exact F'|]. split.
    + intros j d1 [<-|J] N1.
      * assert (d1 = d0) as -> by congruence. exists k, d, r, d'. split; [exact V0|]. split; [exact Hc|]. intros y Y. apply in_or_app. right. apply in_or_app. now left.
      * destruct (C' _ _ J N1) as (k1 & d2 & r2 & d2' & Y1 & Y2 & Y3). exists k1, d2, r2, d2'. split; [exact Y1|]. split; [exact Y2|]. intros y Y. do 3 (apply in_or_app; right). auto.
    + intros cfg ids ign rw rep I. apply in_app_or in I as [I|I]; [eapply C2; eauto|]. apply in_app_or in I as [I|I]; [apply in_map_iff in I as (t & Q & _); discriminate|].
      apply in_app_or in I as [I|I]; [eapply C7; eauto|eapply E'; eauto].
Qed.

(** ** events that load nothing, and check nothing *)
Definition light (e : ev) : Prop := (forall c, e <> ELoad c) /\ (forall c x, e <> ELoadFailed c x).
Definition calm (e : ev) : Prop := (forall c, e <> ELoad c) /\ (forall c x, e <> ELoadFailed c x) /\ (forall a b c d f, e <> ECheck a b c d f).
Definition gain (P : ev -> Prop) (s s' : St) : Prop := (exists n, s_trace s' = s_trace s ++ n /\ Forall P n) /\ s_cache s' = s_cache s.
Lemma gain_refl P s : gain P s s. Proof. split; [exists []; now rewrite app_nil_r|auto]. Qed.
Lemma gain_trans P a b c : gain P a b -> gain P b c -> gain P a c.
Proof.
  intros [(n & T & F) C] [(n' & T' & F') C']. split; [|congruence]. exists (n ++ n'). split; [now rewrite T', T, app_assoc|]. now apply Forall_app.
Qed.
Lemma gain_emit (P : ev -> Prop) e : P e -> keeps (gain P) (emit e). Proof. intros D s. split; [exists [e]; auto|auto]. Qed.
Lemma gain_same {A} P (m : M A) : (forall s, s_trace (snd (m s)) = s_trace s /\ s_cache (snd (m s)) = s_cache s) -> keeps (gain P) m.
Proof. intros H s. destruct (H s) as (T & C). split; [exists []; rewrite T, app_nil_r; auto|auto]. Qed.
Ltac gg := repeat (cbv zeta; match goal with
  | |- keeps _ (bind _ _) => apply (keeps_bind _ (gain_trans _)); [|intros ?]
  | |- keeps _ (ret _) => apply keeps_ret, gain_refl
  | |- keeps _ (lift _) => apply keeps_lift, gain_refl
  | |- keeps _ (get _) => apply keeps_get, gain_refl
  | |- keeps _ (print_text _ _) => unfold print_text
  | |- keeps _ (print_error _) => unfold print_error
  | |- keeps _ (print_result _ _ _) => unfold print_result
  | |- keeps _ (print_load_err _ _) => unfold print_load_err
  | |- keeps _ (print_known_ecosystems _) => unfold print_known_ecosystems
  | |- keeps _ (alloc _) => unfold alloc
  | |- keeps _ (load_at _) => unfold load_at
  | |- keeps _ (find_cfg _ _) => unfold find_cfg
  | |- keeps _ (load_cfg _ _) => unfold load_cfg, report_db_errs
  | |- keeps _ (adjust_all _ _ _) => unfold adjust_all, adjust_one
  | |- keeps _ (find_all_lockfiles _ _) => unfold find_all_lockfiles
  | |- keeps _ (find_lockfiles _ _ _) => unfold find_lockfiles
  | |- keeps _ (write_updated_configs _ _ _) => unfold write_updated_configs
  | |- keeps _ (emit _) => apply gain_emit; repeat split; discriminate
  | |- keeps _ (set_heap _) => apply gain_same; now repeat split
  | |- keeps _ (set_files _) => apply gain_same; now repeat split
  | |- keeps _ (set_dbs _) => apply gain_same; now repeat split
  | |- keeps _ set_errored => apply gain_same; now repeat split
  | |- keeps _ (add_result _) => apply gain_same; now repeat split
  | |- keeps _ (each _ _) => apply (keeps_each _ (gain_refl _) (gain_trans _)); intros ? ?
  | H : forall _, keeps _ _ |- _ => solve [apply H]
  | H : forall _ _, keeps _ _ |- _ => solve [apply H]
  | H : forall _ _ _, keeps _ _ |- _ => solve [apply H]
  | H : keeps _ _ |- _ => exact H
  | |- keeps _ (if ?b then _ else _) => destruct b
  | |- keeps _ (let '(_, _) := ?b in _) => destruct b
  | |- keeps _ (match ?b with _ => _ end) => destruct b
  end).
Lemma gain_check_dbs k lockf : forall dbs, keeps (gain light) (check_dbs E k dbs lockf).
Proof. induction dbs as [|i dbs IH]; cbn [check_dbs]; gg. Qed.
Lemma gain_check_files : forall files k exit seen, keeps (gain light) (check_files E O files k exit seen).
Proof. pose proof gain_check_dbs. induction files as [|f fs IH]; intros k exit seen; cbn [check_files]; unfold check_lockfile; gg. Qed.
Lemma gain_read : forall paths cl cfg, keeps (gain calm) (read_all E O paths cl cfg).
Proof. induction paths as [|p ps IH]; intros cl cfg; cbn [read_all]; gg. Qed.
Lemma gain_find : forall l, keeps (gain calm) (find_all_loop E O l).
Proof. induction l as [|x l IH]; cbn [find_all_loop]; gg. Qed.
Lemma gain_write w : keeps (gain calm) (write_updated_configs E O w).
Proof. assert (U : forall l, keeps (gain calm) (update_all E l)) by (induction l as [|z l0 IH]; cbn [update_all]; unfold update_one; gg). gg. Qed.
Lemma light_none n : Forall light n -> loads n = [] /\ failures n = [].
Proof.
  induction 1 as [|e n [A B] F [I1 I2]]; [auto|]. destruct e; cbn; auto; [edestruct A|edestruct B]; reflexivity.
Qed.
Lemma calm_none n : Forall calm n -> loads n = [] /\ failures n = [] /\ checks n = [].
Proof.
  intros F. assert (L : Forall light n) by (eapply Forall_impl; [|exact F]; intros e (A & B & _); now split). destruct (light_none _ L) as [-> ->].
  split; [reflexivity|]. split; [reflexivity|]. clear L. induction F as [|e n (_ & _ & C) F IH]; [auto|]. destruct e; cbn; auto. edestruct C; reflexivity.
Qed.
Lemma gained {A} (P : ev -> Prop) (m : M A) w s r s' o : faithful m w -> keeps (gain P) m -> w s = (r, s', o) ->
  m s = (r, s') /\ Forall P (dids o) /\ s_cache s' = s_cache s.
Proof.
  intros F K H. destruct (F s) as [Q T]. rewrite H in Q, T. cbn [fst snd] in Q, T. split; [exact Q|]. specialize (K s). rewrite Q in K. cbn [snd] in K.
  destruct K as [(n & T' & N) C]. split; [|exact C]. rewrite T in T'. apply app_inv_head in T'. now rewrite T'.
Qed.
Lemma gained_up {A} (P : ev -> Prop) (m : M A) s r s' o : keeps (gain P) m -> up m s = (r, s', o) ->
  m s = (r, s') /\ Forall P (dids o) /\ s_cache s' = s_cache s.
Proof.
  intros K H. unfold up in H. specialize (K s). destruct (m s) as [r0 s0]. injection H as <- <- <-. cbn [snd] in K. destruct K as [(n & T & N) C].
  split; [reflexivity|]. split; [|exact C]. now rewrite T, skipn_all_app, dids_did.
Qed.

Lemma checks_in cfg ids ign raw rep l : In (mkChk cfg ids ign raw rep) (checks l) <-> In (ECheck cfg ids ign raw rep) l.
Proof.
  unfold checks. rewrite in_flat_map. split.
  - intros (e & I & J). destruct e; cbn in J; try contradiction. destruct J as [[= -> -> -> -> ->]|[]]. exact I.
  - intros I. exists (ECheck cfg ids ign raw rep). cbn. auto.
Qed.
Lemma dids_in e o : In e (dids o) <-> In (Did e) o.
Proof.
  unfold dids. rewrite in_flat_map. split.
  - intros ([x|t] & I & J); cbn in J; [|contradiction]. destruct J as [->|[]]. exact I.
  - intros I. exists (Did e). cbn. auto.
Qed.
Lemma NoDup_ident ds i j d e : NoDup (map db_ident ds) -> nth_error ds i = Some d -> nth_error ds j = Some e -> db_ident d = db_ident e -> d = e.
Proof.
  intros ND N1 N2 Q. pose proof (map_nth_error db_ident _ _ N1) as M1. pose proof (map_nth_error db_ident _ _ N2) as M2. rewrite Q, <- M2 in M1.
  eapply NoDup_nth_error in M1; [congruence|exact ND|]. apply nth_error_Some. congruence.
Qed.
Definition pause (s s' : St) : Prop := gain calm s s' /\ s_dbs s' = s_dbs s.
Lemma pause_refl s : pause s s. Proof. split; [apply gain_refl|reflexivity]. Qed.
Lemma pause_trans a b c : pause a b -> pause b c -> pause a c. Proof. intros [A1 A2] [B1 B2]. split; [eapply gain_trans; eauto|congruence]. Qed.
Lemma pause_emit e : calm e -> keeps pause (emit e). Proof. intros C s. split; [now apply gain_emit|reflexivity]. Qed.
Lemma pause_same {A} (m : M A) : (forall s, s_trace (snd (m s)) = s_trace s /\ s_cache (snd (m s)) = s_cache s /\ s_dbs (snd (m s)) = s_dbs s) -> keeps pause m.
Proof. intros H s. destruct (H s) as (T & C & D). split; [|exact D]. split; [exists []; rewrite T, app_nil_r; auto|exact C]. Qed.
Ltac pp := repeat (cbv zeta; match goal with
  | |- keeps _ (bind _ _) => apply (keeps_bind _ pause_trans); [|intros ?]
  | |- keeps _ (ret _) => apply keeps_ret, pause_refl
  | |- keeps _ (get _) => apply keeps_get, pause_refl
  | |- keeps _ (lift _) => apply keeps_lift, pause_refl
  | |- keeps _ (print_text _ _) => unfold print_text
  | |- keeps _ (print_error _) => unfold print_error
  | |- keeps _ (print_result _ _ _) => unfold print_result
  | |- keeps _ (emit _) => apply pause_emit; repeat split; discriminate
  | |- keeps _ (set_heap _) => apply pause_same; now repeat split
  | |- keeps _ set_errored => apply pause_same; now repeat split
  | |- keeps _ (add_result _) => apply pause_same; now repeat split
  | |- keeps _ (each _ _) => apply (keeps_each _ pause_refl pause_trans); intros ? ?
  | |- keeps _ (if ?b then _ else _) => destruct b
  | |- keeps _ (match ?b with _ => _ end) => destruct b
  end).
Lemma paused {A} (m : M A) s a s' o : keeps pause m -> up m s = (Ok a, s', o) -> m s = (Ok a, s') /\ s_dbs s' = s_dbs s /\ forall b c d e f, ~ In (Did (ECheck b c d e f)) o.
Proof.
  intros K H. assert (K' : keeps (gain calm) m) by (intros x; apply (K x)). destruct (gained_up _ _ _ _ _ _ K' H) as (Q & C & _). split; [exact Q|]. split.
  - specialize (K s). rewrite Q in K. apply K.
  - intros b c d e f I. apply dids_in in I. eapply Forall_forall in C; [|exact I]. destruct C as (_ & _ & X). eapply X. reflexivity.
Qed.
Lemma consulted_r d0 pkgs a b : consulted d0 pkgs b -> consulted d0 pkgs (a ++ b).
Proof. intros H. apply (consulted_app _ _ a b []) in H. now rewrite app_nil_r in H. Qed.
Lemma consulted_l d0 pkgs a b : consulted d0 pkgs a -> consulted d0 pkgs (a ++ b).
Proof. exact (consulted_app _ _ [] a b). Qed.
Ltac out_of I := apply in_app_or in I as [I|I]; [now match goal with N : forall b c d e f, ~ In _ _ |- _ => apply N in I end|].
Lemma consults_files ds0 : o_list_pkgs O = false -> NoDup (map db_ident ds0) -> forall files k exit seen s r s' o,
  check_files_full E O files k exit seen s = (Ok r, s', o) -> Forall2 Evolves ds0 (s_dbs s) ->
  forall cfg ids ign raw rep, In (Did (ECheck cfg ids ign raw rep)) o -> (exists f, In f files /\ rp_lock rep = l_lock f)
    /\ forall d0, In d0 ds0 -> In (db_ident d0) ids -> consulted d0 (lf_pkgs (rp_lock rep)) o.
Proof.
  intros HL ND.
  assert (GO : forall f fs (w : W (Z * list (string * list string))) s r s' o2, w s = (Ok r, s', o2) -> Forall2 Evolves ds0 (s_dbs s) ->
     (forall s r s' o, w s = (Ok r, s', o) -> Forall2 Evolves ds0 (s_dbs s) ->
       forall cfg ids ign raw rep, In (Did (ECheck cfg ids ign raw rep)) o -> (exists f, In f fs /\ rp_lock rep = l_lock f)
       /\ forall d0, In d0 ds0 -> In (db_ident d0) ids -> consulted d0 (lf_pkgs (rp_lock rep)) o) ->
     forall o1 cfg ids ign raw rep, In (Did (ECheck cfg ids ign raw rep)) o2 -> (exists g, In g (f :: fs) /\ rp_lock rep = l_lock g)
       /\ forall d0, In d0 ds0 -> In (db_ident d0) ids -> consulted d0 (lf_pkgs (rp_lock rep)) (o1 ++ o2)).
  { intros f fs w s r s' o2 H F IH o1 cfg ids ign raw rep I. destruct (IH _ _ _ _ H F _ _ _ _ _ I) as [(g & G1 & G2) C].
    split; [exists g; cbn; auto|]. intros d0 D1 D2. apply consulted_r. auto. }
  induction files as [|f fs IH]; intros k exit seen s r s' o H F cfg ids ign raw rep I; cbn [check_files_full] in H.
  { unfold wret, up, ret in H. rewrite skipn_all in H. injection H as <- <- <-. destruct I. }
  wstep H u s1 o1 o2 Hp. apply paused in Hp as (_ & D1 & N1); [|pp]. apply in_app_or in I as [I|I]; [now apply N1 in I|].
  destruct (l_err f) as [e|].
  - wstep H u2 s2 o3 o4 Hp. apply paused in Hp as (_ & D2 & N2); [|pp]. apply in_app_or in I as [I|I]; [now apply N2 in I|].
    rewrite app_assoc. eapply GO; [exact H|congruence| |exact I]. intros; eapply IH; eauto.
  - wstep H h s2 o3 o4 Hp. apply paused in Hp as (_ & D2 & N2); [|pp]. apply in_app_or in I as [I|I]; [now apply N2 in I|].
    cbv zeta in H. set (c := if o_no_ignores O then _ else _) in H.
    wstep H u3 s3 o5 o6 Hp. apply paused in Hp as (_ & D3 & N3); [|pp]. apply in_app_or in I as [I|I]; [now apply N3 in I|].
    wstep H u4 s4 o7 o8 Hp. apply paused in Hp as (_ & D4 & N4); [|pp]. apply in_app_or in I as [I|I]; [now apply N4 in I|].
    rewrite HL in H.
    wstep H u5 s5 o9 o10 Hp. apply paused in Hp as (_ & D5 & N5); [|pp]. apply in_app_or in I as [I|I]; [now apply N5 in I|].
    wstep H dbs s6 o11 o12 Hp. apply paused in Hp as (G & D6 & N6); [|pp]. apply in_app_or in I as [I|I]; [now apply N6 in I|].
    injection G as <- <-.
    wstep H u7 s7 o13 o14 Hp. apply paused in Hp as (_ & D7 & N7); [|pp]. apply in_app_or in I as [I|I]; [now apply N7 in I|].
    wstep H u8 s8 o15 o16 Hp. apply paused in Hp as (_ & D8 & N8); [|pp]. apply in_app_or in I as [I|I]; [now apply N8 in I|].
    assert (F5 : Forall2 Evolves ds0 (s_dbs s5)) by congruence. assert (F8 : Forall2 Evolves ds0 (s_dbs s8)) by congruence.
    wstep H x s9 o17 o18 Hc. unfold check_lockfile_full in Hc. wstep Hc vulns s10 o19 o20 Hd.
    destruct (consults_dbs _ _ _ _ _ _ _ _ Hd F8) as (F10 & CN & NC). clear Hd.
    wstep Hc pkgs s11 o21 o22 Ht. apply paused in Ht as (_ & D11 & N11); [|pp]. unfold wret in Hc. apply paused in Hc as (Hc & D9 & N9); [|pp]. injection Hc as <- _.
    cbn [fst snd] in H.
    apply in_app_or in I as [I|I]; [exfalso; apply in_app_or in I as [I|I]; [now apply NC in I|]; apply in_app_or in I as [I|I]; [now apply N11 in I|now apply N9 in I]|].
    wstep H u12 s12 o23 o24 He. unfold up, emit in He. cbn [s_trace] in He. rewrite skipn_all_app in He. injection He as _ <- <-.
    match type of H with _ ?t = _ => set (s12 := t) in H end. assert (D12 : s_dbs s12 = s_dbs s9) by reflexivity. clearbody s12.
    apply in_app_or in I as [[I|[]]|I].
    + injection I as <- <- <- <- <-. cbn [rp_lock]. split; [exists f; cbn; auto|]. intros d0 I0 Id. apply in_flat_map in Id as (i & Ii & Id).
      destruct (nth_error (s_dbs s5) i) as [d|] eqn:Nd; [|destruct Id]. destruct Id as [Id|[]].
      destruct (MainProofs.Forall2_nth _ _ _ _ _ F5 Nd) as (d1 & N0 & V0). apply evolves_ident in V0.
      apply In_nth_error in I0 as (j & I0). assert (d1 = d0) as -> by (eapply NoDup_ident; eauto; congruence).
      do 8 apply consulted_r. apply consulted_l, consulted_l. eapply CN; eauto.
    + wstep H u13 s13 o25 o26 Hp. apply paused in Hp as (_ & D13 & N13); [|pp]. apply in_app_or in I as [I|I]; [now apply N13 in I|].
      rewrite !app_assoc. eapply GO; [exact H|congruence| |exact I]. intros; eapply IH; eauto.
Qed.

(** ** the whole run *)
Section Whole.
Variable cache : files.
Hypothesis writes_ok : forall path, v_write_err V path = None.
Hypothesis HI : IterOk (e_iter E).
Hypothesis HL : o_list_pkgs O = false.
(** every check was told of by the databases it used *)
Definition heard (o : list out) : Prop := exists names ds,
  loaded E O cache names (loads (dids o)) ds (failures (dids o)) /\ NoDup (map db_ident ds)
  /\ forall cfg ids ign raw rep, In (Did (ECheck cfg ids ign raw rep)) o ->
       (forall p, In p (lf_pkgs (rp_lock rep)) -> In (p_name p) names)
       /\ forall d0, In d0 ds -> In (db_ident d0) ids -> consulted d0 (lf_pkgs (rp_lock rep)) o.
Lemma heard_calm o : Forall calm (dids o) -> heard o.
Proof.
  intros C. destruct (calm_none _ C) as (L & F & K). exists [], []. rewrite L, F. split; [constructor|]. split; [constructor|].
  intros cfg ids ign raw rep I. apply dids_in in I. eapply Forall_forall in C; [|exact I]. destruct C as (_ & _ & X). edestruct X. reflexivity.
Qed.
Lemma heard_around a b c : Forall calm (dids a) -> heard b -> Forall calm (dids c) -> heard (a ++ b ++ c).
Proof.
  intros A (names & ds & LD & ND & CK) C. destruct (calm_none _ A) as (LA & FA & _). destruct (calm_none _ C) as (LC & FC & _).
  exists names, ds. rewrite !dids_app, !loads_app, !failures_app, LA, FA, LC, FC, !app_nil_r. cbn [app]. split; [exact LD|]. split; [exact ND|].
  intros cfg ids ign raw rep I.
  assert (NA : forall o, Forall calm (dids o) -> ~ In (Did (ECheck cfg ids ign raw rep)) o).
  { intros o X J. apply dids_in in J. eapply Forall_forall in X; [|exact J]. destruct X as (_ & _ & X). eapply X. reflexivity. }
  apply in_app_or in I as [I|I]; [now apply NA in I|]. apply in_app_or in I as [I|I]; [|now apply NA in I].
  destruct (CK _ _ _ _ _ I) as [C1 C2]. split; [exact C1|]. intros d0 D1 D2. apply consulted_app. auto.
Qed.
Lemma heard_after a b : Forall calm (dids a) -> heard b -> heard (a ++ b).
Proof. intros A B. rewrite <- (app_nil_r b). apply heard_around; [exact A|exact B|constructor]. Qed.
Lemma heard_before a b : heard a -> Forall calm (dids b) -> heard (a ++ b).
Proof. intros A B. apply (heard_around []); [constructor|exact A|exact B]. Qed.
Definition hears {A} (w : W A) : Prop := forall s a s' o, w s = (Ok a, s', o) -> s_cache s = cache -> heard o.
Lemma hears_files paths cl cfg : hears (run_files_full E V O paths cl cfg).
Proof.
  intros s a s' o H CA. unfold run_files_full in H.
  wstep H lfs s1 o1 o2 Hr. destruct (gained calm _ _ _ _ _ _ (faithful_read E V O _ _ _) (gain_read _ _ _) Hr) as (_ & C1 & K1). clear Hr.
  apply heard_after; [exact C1|].
  wstep H u2 s2 o3 o4 Ha. apply (gained_up calm) in Ha as (_ & C2 & K2); [|gg]. apply heard_after; [exact C2|].
  wstep H h s3 o5 o6 Hg. apply (gained_up calm) in Hg as (_ & C3 & K3); [|gg]. apply heard_after; [exact C3|].
  wstep H x s4 o7 o8 Hl. destruct (faithful_load E V O writes_ok (unique_db_configs (map cf_dbs (get_configs h lfs))) (all_names E lfs) s3) as [Q T]. rewrite Hl in Q, T. cbn [fst snd] in Q, T.
  clear Hl. unfold load_databases in Q. rewrite HL in Q. step Q u5 s5 Hp0.
  assert (K5 : still s3 s5) by (eapply keeps_at; [|exact Hp0]; ss). assert (KC : same_cache s3 s5) by (eapply keeps_at; [|exact Hp0]; kk). clear Hp0.
  step Q r s6 Hll. step Q u7 s7 Hpt. assert (K7 : still s6 s7) by (eapply keeps_at; [|exact Hpt]; ss). injection Q as -> ->.
  destruct x as [ds b]. apply (load_loop_spec _ _ cache) in Hll.
  2:{ intros path. rewrite KC, K3, K2, K1, CA. constructor. }
  destruct Hll as (n2 & T2 & CK2 & _ & L2 & LD & _ & _ & _ & _ & _).
  destruct K5 as [[n5 T5 Q5 _ _ _] _]. destruct K7 as [[n7 T7 Q7 _ _ _] _].
  destruct (quiet_none _ Q5) as (A0 & A1 & A2 & _). destruct (quiet_none _ Q7) as (B0 & B1 & B2 & _).
  rewrite T7, T2, T5, <- !app_assoc in T. apply app_inv_head in T.
  assert (ND : NoDup (map db_ident ds)).
  { eapply MainProofs.loaded_idents; [exact LD|]. apply unique_once. }
  cbn [fst snd] in H.
  wstep H u8 s8 o9 o10 Hs. unfold up, set_dbs in Hs. cbn [s_trace] in Hs. rewrite skipn_all in Hs. injection Hs as _ <- <-. cbn [map app].
  wstep H y s9 o11 o12 Hc. pose proof (consults_files ds HL ND _ _ _ _ _ _ _ _ Hc) as CF. cbn [s_dbs] in CF.
  assert (F0 : Forall2 Evolves ds ds) by (clear; induction ds; constructor; auto; apply evolves_refl). specialize (CF F0).
  destruct (gained light _ _ _ _ _ _ (faithful_check_files E O lfs 0 _ []) (gain_check_files _ _ _ _) Hc) as (_ & C9 & _). clear Hc.
  assert (X : Forall calm (dids o12)).
  { wstep H u10 s10 o13 o14 Hw. apply (gained_up calm) in Hw as (_ & C10 & _); [|destruct (o_update O); [apply gain_write|gg]].
    wstep H er s11 o15 o16 He. apply (gained_up calm) in He as (_ & C11 & _); [|gg]. unfold wret in H.
    apply (gained_up calm) in H as (_ & C12 & _); [|gg]. rewrite !dids_app. repeat (apply Forall_app; split; auto). }
  rewrite app_assoc. apply heard_before; [|exact X].
  exists (all_names E lfs), ds. destruct (light_none _ C9) as [L9 X9].
  rewrite !dids_app, !loads_app, !failures_app, L9, X9, !app_nil_r, <- T, !loads_app, !failures_app, A1, A2, B1, B2, !app_nil_r. cbn [app].
  split; [now rewrite L2|]. split; [exact ND|].
  intros cfg' ids ign raw rep I. apply in_app_or in I as [I|I].
  - exfalso. apply dids_in in I. rewrite <- T in I. apply checks_in in I. rewrite !checks_app, A0, B0, CK2 in I. destruct I.
  - destruct (CF _ _ _ _ _ I) as [(f & F1 & F2) CF']. split; [intros p P; rewrite F2 in P; eapply all_names_in; eauto|]. intros d0 D1 D2. apply consulted_r. auto.
Qed.
Lemma hears_bind {A B} (m : M A) (g : A -> W B) : keeps (gain calm) m -> (forall a, hears (g a)) -> hears (wbind (up m) g).
Proof.
  intros K G s b s' o H CA. wstep H a s1 o1 o2 Hm. destruct (gained_up _ _ _ _ _ _ K Hm) as (_ & C & Q). apply heard_after; [exact C|]. eapply G; [exact H|congruence].
Qed.
Lemma hears_up {A} (m : M A) : keeps (gain calm) m -> hears (up m).
Proof. intros K s b s' o H CA. destruct (gained_up _ _ _ _ _ _ K H) as (_ & C & _). now apply heard_calm. Qed.
Lemma hears_body : hears (run_body_full E V O).
Proof.
  pose proof gain_find. pose proof hears_files as HF. unfold run_body_full, run_config_full.
  repeat match goal with
  | |- hears (run_files_full _ _ _ _ _ _) => apply HF
  | |- hears (wbind _ _) => apply hears_bind; [solve [gg]|intros ?]
  | |- hears (wret _) => unfold wret
  | |- hears (up _) => apply hears_up; solve [gg]
  | |- hears (if ?b then _ else _) => destruct b
  | |- hears (match ?b with _ => _ end) => destruct b
  | |- hears _ => progress cbv zeta
  end.
Qed.
Lemma run_heard fs code s' o : run_full E V O (start fs cache) = (Ok code, s', o) -> heard o.
Proof.
  unfold run_full. destruct (run_body_full E V O (start fs cache)) as [[r1 s1] o1] eqn:B. destruct (o_json O).
  - destruct (up (print_json_results_full E V) s1) as [[r2 s2] o2] eqn:P. intros [= -> <- <-]. apply heard_before; [eapply hears_body; eauto|].
    eapply gained_up in P as (_ & C & _); [exact C|]. unfold print_json_results_full, print_json_results. gg.
  - intros [= -> <- <-]. eapply hears_body; eauto.
Qed.
End Whole.
End Run.

(** ** an advisory whose entries for a package say nothing is told of *)
Lemma printed_mentions E V O : (forall v, v_osv_err V v = None) -> SorterOk (e_sort E) -> IterOk (e_iter E) -> EntriesOk E -> (forall path, v_write_err V path = None) ->
  forall fs cache code s' out, checking O -> distinct_names E O fs -> run_full E V O (start fs cache) = (Ok code, s', out) -> code = 0%Z \/ code = 1%Z ->
  forall l c d p o a, uses E O fs l c d -> In p (lf_pkgs l) -> has_char ":" (p_eco p) = false ->
  must_hold E O cache d o -> o_withdrawn o = None -> In a (o_affected o) -> names a p -> (forall a, In a (o_affected o) -> names a p -> bare a) ->
  In (Note (bare_notice (o_id o))) out.
Proof.
  intros PR HS HI HE WO fs cache code s' out HC DN R Hc l c d p o a U P Col MH W Ia Na All.
  destruct (run_erased E V O WO _ _ _ _ PR R) as [H T]. cbn [start s_trace app] in T. assert (HL : o_list_pkgs O = false) by apply HC.
  destruct (run_heard E V O cache WO HI HL _ _ _ _ R) as (names0 & ds0 & LD0 & ND0 & CK). rewrite <- T in LD0.
  pose proof (run_outcome E O HS HI HE fs cache code s' HC H) as Out.
  destruct Out as [| e | | l0 e mode rs names1 ds code K I N [S1 S2 S3 S4 S5 S6 S7 S8] Ex Mi].
  - destruct Hc; discriminate.
  - destruct (negb e && _); destruct Hc; discriminate.
  - destruct Hc; discriminate.
  - assert (HF : failures (s_trace s') = []) by (destruct Ex; auto; destruct Hc; discriminate).
    destruct (uses_in _ _ _ _ _ _ _ _ _ _ I S1 S2 U) as [UI As].
    assert (Hd : In (identifier d) (map identifier (loads (s_trace s')))) by (apply S4; eauto 6).
    apply in_map_iff in Hd as (d' & Id & D'). destruct (S8 d' D') as (l' & c' & U1 & As1).
    assert (Us' : uses E O fs l' c' d') by (exists l0, e, mode, rs; auto).
    destruct (same_identifier _ _ _ _ _ _ _ _ _ DN U Us' (eq_sym Id)) as (Q1 & Q2 & Q3).
    apply (must_same _ _ _ _ _ _ Q1 Q2 Q3) in MH.
    (* the database as the session has it, for its identifier *)
    destruct (proj1 (loaded_in _ _ _ _ _ _ _ S6) d' D' HF) as (db1 & DB1 & DB2). destruct (loads_content _ _ _ _ _ _ DB2) as [Iq1 _].
    destruct (proj1 (loaded_in _ _ _ _ _ _ _ LD0) d' D' HF) as (db & DB3 & DB4).
    destruct (loads_content _ _ _ _ _ _ DB4) as [Iq [[Tq _]|(os & Ct)]]; [destruct MH; congruence|].
    pose proof (content_must _ _ _ _ _ _ _ _ Ct MH) as Io.
    destruct (Forall2_left _ _ _ _ S7 UI) as (ck & K1 & k & ce & Ef & Co). destruct Ef as (Ef1 & Ef2 & Ef3). destruct Co as [used ans rows Us An Tr].
    assert (Iu : In db1 used).
    { apply (selects_all _ _ _ _ Us DB1). rewrite Iq1, Id. apply Ef3. eauto. }
    apply checks_in in K1. rewrite T in K1. apply dids_in in K1. destruct (CK _ _ _ _ _ K1) as [Nm CN]. cbn [rp_lock] in *.
    destruct (CN db DB3) as (k0 & dn & r & dn' & Ev & Ch & In0); [rewrite Iq, <- Iq1; now apply in_map|].
    apply In0, in_map. clear In0. assert (Hn : names0 = [] \/ In (p_name p) names0) by (right; now apply Nm).
    destruct Ct as [n date entries os' Tz Ar Ao|n os' Tz J]; inversion Ev; subst; cbn [check_db db_says] in *;
      match goal with Hh : history _ _ _ ?dbx |- _ => apply (history_state _ _ _ _ _ _ HS (db_state_load _ _)) in Hh;
        destruct (check (e_sort E) (e_sem E) dbx (lf_pkgs l)) as [[rs' db2]|] eqn:CC; [|discriminate]; eapply check_mentions; eauto end.
Qed.
Theorem run_mentions E V O : SorterOk (e_sort E) -> IterOk (e_iter E) -> EntriesOk E -> (forall path, v_write_err V path = None) ->
  forall fs cache code s' out, checking O -> distinct_names E O fs -> run_full E V O (start fs cache) = (Ok code, s', out) -> code = 0%Z \/ code = 1%Z ->
  forall l c d p o a, uses E O fs l c d -> In p (lf_pkgs l) -> has_char ":" (p_eco p) = false ->
  must_hold E O cache d o -> o_withdrawn o = None -> In a (o_affected o) -> names a p -> (forall a, In a (o_affected o) -> names a p -> bare a) ->
  In (Note (bare_notice (o_id o))) out.
Proof.
  intros HS HI HE WO fs cache code s' out HC DN R Hc l c d p o a U P Col MH W Ia Na All.
  assert (G : forall s2 o2, run_full E (printing V) O (start fs cache) = (Ok code, s2, o2) -> In (Note (bare_notice (o_id o))) o2).
  { intros s2 o2 R2. eapply (printed_mentions E (printing V) O); eauto. }
  apply run_printing in R as (s1 & o1 & _ & R). destruct (o_json O); [|destruct R as [R _]; eauto].
  destruct R as [R X]. apply G in R. apply in_app_or in R as [R|[R|[]]]; [|discriminate].
  destruct (marshal_err V _); destruct X as [_ ->]; apply in_or_app; auto.
Qed.
