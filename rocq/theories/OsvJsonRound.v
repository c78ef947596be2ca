(** Advisories survive being written and read. *)
From Verif Require Import GoStr GoStrFacts Utf8 Types Json JsonFacts JsonRound MemDB OsvJson OsvJsonSpec OsvJsonProofs.

Ltac mstep := erewrite members_step; [|first [reflexivity | eapply on_fine]].
Lemma range_back nil r : nil_ok nil -> d_range (enc_range nil r) (mkRange "" []) = (r, Fine).
Proof.
  intros N. destruct r as [t es]. unfold d_range, enc_range, d_struct. cbn [r_type r_events]. set (set := fun k : string => _).
  mstep. erewrite members_step; [|exact (on_fine _ _ _ _ _ _ (list_back _ _ _ nil es _ N (fun e _ => event_back e)))]. reflexivity.
Qed.
Lemma affected_back nil a : nil_ok nil -> d_affected (enc_affected nil a) (mkAff (mkOPkg "" "") [] []) = (a, Fine).
Proof.
  intros N. destruct a as [[n e] vs rs]. unfold d_affected, enc_affected, d_struct. cbn [a_pkg a_versions a_ranges op_name op_eco]. set (set := fun k : string => _).
  assert (HP : forall old, d_opkg (JObj [("name", JStr n); ("ecosystem", JStr e)]) old = (mkOPkg n e, Fine)).
  { intros old. unfold d_opkg, d_struct. erewrite members_step; [|reflexivity]. erewrite members_step; [|reflexivity]. reflexivity. }
  assert (HV : forall old, d_list d_string "" (JArr (map JStr vs)) old = (vs, Fine)) by (intros old; apply elems_back; reflexivity).
  assert (HR : forall old, d_list d_range (mkRange "" []) (JArr (map (enc_range nil) rs)) old = (rs, Fine)) by (intros old; apply elems_back; intros; now apply range_back).
  cbn [app]. erewrite members_step; [|exact (on_fine _ _ _ _ _ _ (HP _))]. erewrite members_step; [|exact (on_fine _ _ _ _ _ _ (HV _))].
  destruct rs as [|r rs]; [reflexivity|]. erewrite members_step; [|exact (on_fine _ _ _ _ _ _ (HR _))]. reflexivity.
Qed.
Lemma stamp_eq t : (if seqb t "" then "0001-01-01T00:00:00Z" else t) = stamp t.
Proof. destruct t; [reflexivity|]. cbn [stamp]. destruct (seqb_spec (String a t) ""); [discriminate|reflexivity]. Qed.
Lemma osv_back f nil o : nil_ok nil -> (forall t, In t (stamps o) -> f (stamp t) = Some t) -> d_osv f (enc_osv nil o) no_osv = (o, Fine).
Proof.
  intros N T. destruct o as [id al su pu mo wi de af]. unfold stamps in T. cbn [o_published o_modified o_withdrawn] in T.
  assert (HT : forall t old, f (stamp t) = Some t -> d_time f (enc_time t) old = (t, Fine)).
  { intros t old E. unfold enc_time, d_time. now rewrite stamp_eq, E. }
  assert (HP : f (stamp pu) = Some pu) by (apply T; now left). assert (HM : f (stamp mo) = Some mo) by (apply T; right; now left).
  assert (HL : forall old, d_list d_string "" (enc_list nil JStr al) old = (al, Fine)) by (intros old; apply list_back; auto).
  assert (HA : forall old, d_list d_affected (mkAff (mkOPkg "" "") [] []) (enc_list nil (enc_affected nil) af) old = (af, Fine)).
  { intros old. apply list_back; [exact N|]. intros. now apply affected_back. }
  unfold d_osv, enc_osv, d_struct. cbn [o_id o_aliases o_summary o_published o_modified o_withdrawn o_details o_affected]. set (set := fun k : string => _). cbn [app].
  rewrite (members_step set "id" _ _ _ (mkOSV id [] "" "" "" None "" [])) by reflexivity.
  rewrite (members_step set "aliases" _ _ _ (mkOSV id al "" "" "" None "" [])) by exact (on_fine _ _ _ _ _ _ (HL _)).
  rewrite (members_step set "summary" _ _ _ (mkOSV id al su "" "" None "" [])) by reflexivity.
  rewrite (members_step set "published" _ _ _ (mkOSV id al su pu "" None "" [])) by exact (on_fine _ _ _ _ _ _ (HT _ _ HP)).
  rewrite (members_step set "modified" _ _ _ (mkOSV id al su pu mo None "" [])) by exact (on_fine _ _ _ _ _ _ (HT _ _ HM)).
  assert (HE : d_members set [("details", JStr de); ("affected", enc_list nil (enc_affected nil) af)] (mkOSV id al su pu mo wi "" []) = (mkOSV id al su pu mo wi de af, Fine)).
  { rewrite (members_step set "details" _ _ _ (mkOSV id al su pu mo wi de [])) by reflexivity.
    rewrite (members_step set "affected" _ _ _ (mkOSV id al su pu mo wi de af)) by exact (on_fine _ _ _ _ _ _ (HA _)). reflexivity. }
  destruct wi as [t|]; cbn [app]; [|exact HE].
  assert (HW : f (stamp t) = Some t) by (apply T; right; right; now left).
  assert (HW' : forall old, d_time_ptr f (enc_time t) old = (Some t, Fine)).
  { intros old. pose proof (HT t (match old with Some t => t | None => "" end) HW) as E. unfold d_time_ptr, enc_time in *. now rewrite E. }
  rewrite (members_step set "withdrawn" _ _ _ (mkOSV id al su pu mo (Some t) "" [])) by exact (on_fine _ _ _ _ _ _ (HW' _)). exact HE.
Qed.

Lemma good_str s : utf8 s -> good (JStr s) = true.
Proof. intros H. cbn [good]. apply seqb_eq. exact H. Qed.
Lemma good_list {A} nil (e : A -> json) l : nil_ok nil -> Forall (fun a => good (e a) = true) l -> good (enc_list nil e l) = true.
Proof.
  intros N H. destruct H as [|a l H1 H2]; [destruct N as [-> | ->]; reflexivity|]. unfold enc_list. cbn [map good forallb].
  rewrite H1. apply forallb_forall. intros x I. apply in_map_iff in I as (b & <- & I). rewrite Forall_forall in H2. auto.
Qed.
Lemma good_obj l : Forall (fun kv => utf8 (fst kv) /\ good (snd kv) = true) l -> good (JObj l) = true.
Proof.
  intros H. cbn [good]. apply forallb_forall. intros kv I. rewrite Forall_forall in H. destruct (H kv I) as [A B]. rewrite B, Bool.andb_true_r. now apply seqb_eq.
Qed.
Lemma good_omit k s : utf8 k -> utf8 s -> Forall (fun kv => utf8 (fst kv) /\ good (snd kv) = true) (omit_empty k s).
Proof. intros K H. unfold omit_empty. destruct (seqb s ""); constructor; [|constructor]. split; [exact K|]. now apply good_str. Qed.
Ltac key := vm_compute; reflexivity.
Lemma good_event e : Forall utf8 (event_texts e) -> good (enc_event e) = true.
Proof.
  intros H. unfold event_texts in H. inversion H as [|? ? A H1]; subst. inversion H1 as [|? ? B H2]; subst. inversion H2 as [|? ? C _]; subst.
  apply good_obj. rewrite !Forall_app. repeat split; apply good_omit; auto; key.
Qed.
Lemma flat_forall {A B} (P : B -> Prop) (f : A -> list B) l : Forall P (flat_map f l) -> forall a, In a l -> Forall P (f a).
Proof. intros H a I. rewrite Forall_forall in *. intros b J. apply H. apply in_flat_map. eauto. Qed.
Lemma good_range nil r : nil_ok nil -> Forall utf8 (range_texts r) -> good (enc_range nil r) = true.
Proof.
  intros N H. unfold range_texts in H. inversion H as [|? ? A B]; subst. apply good_obj. constructor; [split; [key|now apply good_str]|]. constructor; [|constructor].
  split; [key|]. apply good_list; [exact N|]. apply Forall_forall. intros e I. apply good_event. eapply flat_forall; eauto.
Qed.
Lemma good_map {A} (e : A -> json) l : (forall a, In a l -> good (e a) = true) -> good (JArr (map e l)) = true.
Proof. intros H. cbn [good]. apply forallb_forall. intros x I. apply in_map_iff in I as (b & <- & I). auto. Qed.
Lemma good_affected nil a : nil_ok nil -> Forall utf8 (affected_texts a) -> good (enc_affected nil a) = true.
Proof.
  intros N H. unfold affected_texts in H. rewrite !Forall_app in H. destruct H as (P & V & R). inversion P as [|? ? P1 P']; subst. inversion P' as [|? ? P2 _]; subst.
  apply good_obj. rewrite Forall_app. split.
  - constructor; [split; [key|]|constructor; [split; [key|]|constructor]].
    + cbn [snd]. apply good_obj. constructor; [split; [key|now apply good_str]|]. constructor; [|constructor]. split; [key|now apply good_str].
    + cbn [snd]. apply good_map. intros s I. apply good_str. rewrite Forall_forall in V. auto.
  - destruct (a_ranges a) as [|r rs] eqn:E; [constructor|]. constructor; [|constructor]. split; [key|]. cbn [snd]. apply good_map. intros x I. apply good_range; [exact N|].
    eapply flat_forall; eauto.
Qed.
Lemma good_time t : utf8 t -> good (enc_time t) = true.
Proof. intros H. unfold enc_time. apply good_str. destruct (seqb t ""); [key|exact H]. Qed.
Lemma good_osv nil o : nil_ok nil -> Forall utf8 (osv_texts o) -> (forall t, In t (stamps o) -> utf8 t) -> good (enc_osv nil o) = true.
Proof.
  intros N H T. unfold osv_texts in H. rewrite !Forall_app in H. destruct H as (P & L & A). inversion P as [|? ? P1 P']; subst. inversion P' as [|? ? P2 P'']; subst. inversion P'' as [|? ? P3 _]; subst.
  apply good_obj. rewrite !Forall_app. split; [|split].
  - constructor; [split; [key|now apply good_str]|]. constructor; [split; [key|]|].
    { cbn [snd]. apply good_list; [exact N|]. rewrite Forall_forall in *. intros s I. apply good_str. auto. }
    constructor; [split; [key|now apply good_str]|]. constructor; [split; [key|]; apply good_time, T; now left|]. constructor; [|constructor]. split; [key|]. apply good_time, T. right. now left.
  - destruct (o_withdrawn o) as [t|] eqn:E; [|constructor]. constructor; [|constructor]. split; [key|]. apply good_time, T. unfold stamps. rewrite E. right. right. now left.
  - constructor; [split; [key|now apply good_str]|]. constructor; [|constructor]. split; [key|]. cbn [snd]. apply good_list; [exact N|]. apply Forall_forall. intros a I. apply good_affected; [exact N|]. eapply flat_forall; eauto.
Qed.
(** how deep an advisory is nested *)
Lemma deep_obj n m l : (N.succ n <= m)%N -> Forall (fun kv => (depth (snd kv) <= n)%N) l -> (depth (JObj l) <= m)%N.
Proof. intros M F. etransitivity; [|exact M]. now apply (depth_obj n l). Qed.
Lemma deep_map {A} n m (e : A -> json) l : (N.succ n <= m)%N -> (forall a, depth (e a) <= n)%N -> (depth (JArr (map e l)) <= m)%N.
Proof. intros M F. etransitivity; [|exact M]. apply (depth_arr n). apply Forall_forall. intros x I. apply in_map_iff in I as (a & <- & _). apply F. Qed.
Lemma deep_list {A} n m nil (e : A -> json) l : nil_ok nil -> (N.succ n <= m)%N -> (forall a, depth (e a) <= n)%N -> (depth (enc_list nil e l) <= m)%N.
Proof.
  intros N M F. destruct l as [|a l]; [|now apply (deep_map n)]. cbn [enc_list]. destruct N as [-> | ->]; cbn; [lia|]. destruct n; cbn in *; lia.
Qed.
Lemma deep_omit n k v : Forall (fun kv => (depth (snd kv) <= n)%N) (omit_empty k v).
Proof. unfold omit_empty. destruct (seqb v ""); repeat constructor. cbn. lia. Qed.
Lemma deep_osv nil o : nil_ok nil -> (depth (enc_osv nil o) <= 10000)%N.
Proof.
  intros N. assert (DE : forall e, (depth (enc_event e) <= 1)%N) by (intros e; apply (deep_obj 0); [reflexivity|]; rewrite !Forall_app; auto using deep_omit).
  assert (DR : forall r, (depth (enc_range nil r) <= 3)%N).
  { intros r. apply (deep_obj 2); [reflexivity|]. repeat constructor; cbn [snd]; [cbn; lia|]. now apply (deep_list 1). }
  assert (DA : forall a, (depth (enc_affected nil a) <= 5)%N).
  { intros a. apply (deep_obj 4); [reflexivity|]. apply Forall_app. split.
    - repeat constructor; cbn [snd]; [cbn; lia|]. apply (deep_map 0); [lia|]. intros v. cbn. lia.
    - destruct (a_ranges a) as [|r rs]; repeat constructor. now apply (deep_map 3). }
  unfold enc_osv, enc_time. apply (deep_obj 6); [lia|]. rewrite !Forall_app. split; [|split].
  - repeat constructor; cbn [snd]; try (cbn; lia). apply (deep_list 0); [exact N|lia|]. intros v. cbn. lia.
  - destruct (o_withdrawn o); repeat constructor. cbn. lia.
  - repeat constructor; cbn [snd]; [cbn; lia|]. now apply (deep_list 5).
Qed.
Theorem round f nil o : nil_ok nil -> sound f o -> dec_osv f (print (enc_osv nil o)) = (o, false).
Proof.
  intros N [U T]. unfold dec_osv. rewrite parse_print; [|apply good_osv; auto; intros t I; apply T; exact I|now apply deep_osv]. rewrite osv_back; auto. intros t I. apply T; exact I.
Qed.

(** ** whatever was read is sound *)
Lemma pval_norm : forall n, (forall s j r, pval n s = Some (j, r) -> norm j = j)
  /\ (forall s l r, parr n s = Some (l, r) -> map norm l = l)
  /\ (forall s l r, pmem n s = Some (l, r) -> map (fun kv => (to_valid (fst kv), norm (snd kv))) l = l).
Proof.
  induction n as [|n (IV & IA & IM)]; [repeat split; intros; discriminate|]. repeat split.
  - intros s j r H. cbn [pval] in H. destruct (skip_ws s) as [|c s1]; [discriminate|].
    destruct (Ascii.eqb c dq). { destruct (unescape s1) as [[v r']|]; [|discriminate]. injection H as <- <-. cbn [norm]. now rewrite to_valid_idem. }
    destruct (Ascii.eqb c "[").
    { assert (H' : match parr n s1 with Some (l, r) => Some (JArr l, r) | None => None end = Some (j, r) \/ j = JArr []).
      { destruct (skip_ws s1) as [|d s2]; [left; exact H|]. destruct d as [[] [] [] [] [] [] [] []]; try (left; exact H). right. now injection H as <- _. }
      destruct H' as [H'|H']; [|subst; reflexivity]. destruct (parr n s1) as [[l r']|] eqn:E; [|discriminate]. injection H' as <- <-. cbn [norm]. f_equal. eauto. }
    destruct (Ascii.eqb c "{").
    { assert (H' : match pmem n s1 with Some (l, r) => Some (JObj l, r) | None => None end = Some (j, r) \/ j = JObj []).
      { destruct (skip_ws s1) as [|d s2]; [left; exact H|]. destruct d as [[] [] [] [] [] [] [] []]; try (left; exact H). right. now injection H as <- _. }
      destruct H' as [H'|H']; [|subst; reflexivity]. destruct (pmem n s1) as [[l r']|] eqn:E; [|discriminate]. injection H' as <- <-. cbn [norm]. f_equal. eauto. }
    destruct (is_digit c || Ascii.eqb c "-").
    { destruct (span_num (String c s1)) as [m r']. destruct (valid_num m); [|discriminate]. now injection H as <- _. }
    destruct (strip_prefix "null" (String c s1)); [now injection H as <- _|]. destruct (strip_prefix "true" (String c s1)); [now injection H as <- _|].
    destruct (strip_prefix "false" (String c s1)); [now injection H as <- _|discriminate].
  - intros s l r H. cbn [parr] in H. destruct (pval n s) as [[v r']|] eqn:E; [|discriminate]. apply IV in E.
    destruct (skip_ws r') as [|d s2]; [discriminate|].
    assert (H' : l = [v] \/ exists l', parr n s2 = Some (l', r) /\ l = v :: l').
    { destruct d as [[] [] [] [] [] [] [] []]; try discriminate H; [left; now injection H as <- _|right].
      destruct (parr n s2) as [[l' r2]|] eqn:E2; [|discriminate]. injection H as <- <-. eauto. }
    destruct H' as [-> |(l' & E2 & ->)]; cbn [map]; rewrite E; [reflexivity|]. apply IA in E2. now rewrite E2.
  - intros s l r H. cbn [pmem] in H. destruct (skip_ws s) as [|c s1]; [discriminate|]. destruct (negb (Ascii.eqb c dq)); [discriminate|].
    destruct (unescape s1) as [[k r1]|]; [|discriminate]. destruct (skip_ws r1) as [|d r2]; [discriminate|].
    assert (H' : exists v r3, pval n r2 = Some (v, r3) /\ match skip_ws r3 with
                      | String "}"%char r3 => Some ([(to_valid k, v)], r3)
                      | String ","%char r3 =>
                          match pmem n r3 with Some (l, r4) => Some ((to_valid k, v) :: l, r4) | None => None end
                      | _ => None
                      end = Some (l, r)).
    { destruct d as [[] [] [] [] [] [] [] []]; try discriminate H. destruct (pval n r2) as [[v r3]|]; [|discriminate H]. eauto. }
    clear H. destruct H' as (v & r3 & E & H). apply IV in E. destruct (skip_ws r3) as [|e r4]; [discriminate|].
    assert (H' : l = [(to_valid k, v)] \/ exists l', pmem n r4 = Some (l', r) /\ l = (to_valid k, v) :: l').
    { destruct e as [[] [] [] [] [] [] [] []]; try discriminate H; [left; now injection H as <- _|right].
      destruct (pmem n r4) as [[l' r5]|] eqn:E2; [|discriminate]. injection H as <- <-. eauto. }
    destruct H' as [-> |(l' & E2 & ->)]; cbn [map fst snd]; rewrite E, to_valid_idem; [reflexivity|]. apply IM in E2. now rewrite E2.
Qed.
Lemma parse_norm c j : parse c = Some j -> norm j = j.
Proof.
  intros H. apply parse_some in H. revert H. unfold parse_text. destruct (pval _ c) as [[v r]|] eqn:E; [|discriminate]. destruct (seqb _ ""); [|discriminate]. intros [= <-]. eapply pval_norm; eauto.
Qed.
Definition keeps {A} (d : decoder A) (P : A -> Prop) : Prop := forall v old, norm v = v -> P old -> P (fst (d v old)).
Lemma string_keeps : keeps d_string utf8.
Proof. intros [] old N H; cbn in *; auto. now injection N as N. Qed.
Lemma elems_keeps {A} (d : decoder A) zero (P : A -> Prop) : P zero -> keeps d P -> forall l, map norm l = l -> Forall P (fst (d_elems d zero l)).
Proof.
  intros Z K. induction l as [|v l IH]; intros N; cbn [d_elems]; [constructor|]. cbn [map] in N. injection N as N1 N2.
  specialize (K v zero N1 Z). specialize (IH N2). destruct (d v zero) as [a st], (d_elems d zero l) as [r st']. cbn [fst] in *. destruct st; cbn [fst]; repeat constructor; auto.
Qed.
Lemma list_keeps {A} (d : decoder A) zero (P : A -> Prop) : P zero -> keeps d P -> keeps (d_list d zero) (Forall P).
Proof. intros Z K [] old N H; cbn [d_list fst]; auto. cbn [norm] in N. injection N as N. now apply elems_keeps. Qed.
Lemma members_keeps {S} (set : string -> decoder S) (P : S -> Prop) : (forall k, keeps (set k) P) -> forall l s, map (fun kv => (to_valid (fst kv), norm (snd kv))) l = l -> P s -> P (fst (d_members set l s)).
Proof.
  intros K. induction l as [|[k v] l IH]; intros s N H; cbn [d_members]; [exact H|]. cbn [map fst snd] in N. injection N as _ N1 N2.
  specialize (K (fold_key k) v s N1 H). destruct (set (fold_key k) v s) as [s1 st]. cbn [fst] in K. specialize (IH s1 N2 K).
  destruct (d_members set l s1). destruct st; auto.
Qed.
Lemma struct_keeps {S} (set : string -> decoder S) (P : S -> Prop) : (forall k, keeps (set k) P) -> keeps (d_struct set) P.
Proof. intros K [] old N H; cbn [d_struct fst]; auto. cbn [norm] in N. injection N as N. now apply members_keeps. Qed.
Lemma on_keeps {S A} (d : decoder A) (get : S -> A) put (P : S -> Prop) (Q : A -> Prop) : keeps d Q -> (forall s, P s -> Q (get s)) -> (forall a s, Q a -> P s -> P (put a s)) -> keeps (on d get put) P.
Proof. intros K G U v s N H. unfold on. specialize (K v (get s) N (G s H)). destruct (d v (get s)). cbn [fst] in *. auto. Qed.
Lemma skip_keeps {S} (P : S -> Prop) : keeps (fun _ s => (s, Fine)) P. Proof. intros v s N H. exact H. Qed.
Ltac struct_tac := apply struct_keeps; intros k; repeat match goal with |- keeps (if ?b then _ else _) _ => destruct b end; try apply skip_keeps.
Lemma empty_utf8 : utf8 "". Proof. reflexivity. Qed.
Lemma opkg_keeps : keeps d_opkg (fun p => utf8 (op_name p) /\ utf8 (op_eco p)).
Proof. struct_tac; eapply on_keeps; try apply string_keeps; cbn; tauto. Qed.
Lemma event_keeps : keeps d_event (fun e => Forall utf8 (event_texts e)).
Proof.
  struct_tac; eapply on_keeps; try apply string_keeps; try (intros [a b c]; unfold event_texts; cbn); intros.
  all: repeat match goal with H : Forall _ (_ :: _) |- _ => inversion H; clear H; subst end; auto.
  all: destruct s; unfold event_texts in *; cbn in *; repeat match goal with H : Forall _ (_ :: _) |- _ => inversion H; clear H; subst end; auto.
Qed.
Lemma flat_iff {A B} (P : B -> Prop) (f : A -> list B) l : Forall P (flat_map f l) <-> Forall (fun a => Forall P (f a)) l.
Proof.
  split; [intros H; apply Forall_forall; intros a I; eapply flat_forall; eauto|]. intros H. rewrite Forall_forall in *. intros b I. apply in_flat_map in I as (a & I & J).
  specialize (H a I). rewrite Forall_forall in H. auto.
Qed.
Lemma range_keeps : keeps d_range (fun r => Forall utf8 (range_texts r)).
Proof.
  assert (E : Forall utf8 (event_texts (mkEv "" "" ""))) by repeat constructor.
  struct_tac; eapply on_keeps; try apply string_keeps; try (apply (list_keeps _ _ _ E event_keeps)); unfold range_texts.
  - intros s H. now inversion H.
  - intros a s Ha H. cbn. inversion H; subst. now constructor.
  - intros s H. inversion H; subst. now apply flat_iff.
  - intros a s Ha H. cbn. inversion H; subst. constructor; auto. now apply flat_iff.
Qed.
Lemma affected_keeps : keeps d_affected (fun a => Forall utf8 (affected_texts a)).
Proof.
  assert (E : Forall utf8 (range_texts (mkRange "" []))) by repeat constructor.
  assert (X : forall p vs rs, Forall utf8 (affected_texts (mkAff p vs rs)) <-> (utf8 (op_name p) /\ utf8 (op_eco p)) /\ Forall utf8 vs /\ Forall (fun r => Forall utf8 (range_texts r)) rs).
  { intros p vs rs. unfold affected_texts. cbn [a_pkg a_versions a_ranges]. rewrite !Forall_app, flat_iff. split; intros (H & I & J).
    - inversion H as [|? ? A B]; subst. inversion B; subst. auto.
    - destruct H. auto. }
  struct_tac; eapply on_keeps; try apply opkg_keeps; try (apply (list_keeps _ _ _ empty_utf8 string_keeps)); try (apply (list_keeps _ _ _ E range_keeps)).
  all: first [intros [p vs rs]|intros x [p vs rs]]; cbn [a_pkg a_versions a_ranges]; rewrite ?X; tauto.
Qed.
Definition stamp_ok (f : string -> option string) (t : string) : Prop := utf8 t /\ f (stamp t) = Some t.
Lemma time_keeps f : settles f -> keeps (d_time f) (stamp_ok f).
Proof.
  intros [S0 S1] [] old N H; cbn [d_time fst]; auto. destruct (f s) as [t|] eqn:E; cbn [fst]; [exact (S1 _ _ E)|]. split; [reflexivity|exact S0].
Qed.
Lemma time_ptr_keeps f : settles f -> keeps (d_time_ptr f) (fun o => match o with Some t => stamp_ok f t | None => True end).
Proof.
  intros F v old N H. unfold d_time_ptr. pose proof (time_keeps f F v (match old with Some t => t | None => "" end) N) as K.
  assert (P : stamp_ok f (match old with Some t => t | None => "" end)) by (destruct old; [exact H|split; [reflexivity|apply F]]). specialize (K P).
  destruct v; cbn [fst]; auto; match goal with |- context [d_time f ?v ?o] => destruct (d_time f v o) end; exact K.
Qed.
Lemma osv_keeps f : settles f -> keeps (d_osv f) (sound f).
Proof.
  intros F.
  assert (E : Forall utf8 (affected_texts (mkAff (mkOPkg "" "") [] []))) by repeat constructor.
  assert (X : forall id al su pu mo wi de af, sound f (mkOSV id al su pu mo wi de af) <->
    utf8 id /\ Forall utf8 al /\ utf8 su /\ stamp_ok f pu /\ stamp_ok f mo /\ match wi with Some t => stamp_ok f t | None => True end /\ utf8 de /\ Forall (fun a => Forall utf8 (affected_texts a)) af).
  { intros. unfold sound, osv_texts, stamps. cbn [o_id o_summary o_details o_aliases o_affected o_published o_modified o_withdrawn]. rewrite !Forall_app, flat_iff. split.
    - intros [(H & I & J) T]. inversion H as [|? ? H1 H2]; subst. inversion H2 as [|? ? H3 H4]; subst. inversion H4; subst.
      split; [assumption|]. split; [assumption|]. split; [assumption|]. split; [apply T; cbn; tauto|]. split; [apply T; cbn; tauto|]. split; [|split; assumption].
      destruct wi; [|exact Logic.I]. apply T. cbn. tauto.
    - intros (A & B & C & D & G & W & K & L). split; [split; [auto|split; assumption]|]. intros t [<- |[<- |I]]; [exact D|exact G|]. destruct wi; [|destruct I]. destruct I as [<- |[]]. exact W. }
  struct_tac; eapply on_keeps; try apply string_keeps; try (apply time_keeps, F); try (apply time_ptr_keeps, F);
    try (apply (list_keeps _ _ _ empty_utf8 string_keeps)); try (apply (list_keeps _ _ _ E affected_keeps)).
  all: first [intros [id al su pu mo wi de af]|intros x [id al su pu mo wi de af]]; cbn [o_id o_summary o_details o_aliases o_affected o_published o_modified o_withdrawn]; rewrite ?X; tauto.
Qed.
Theorem read_sound f c : settles f -> sound f (fst (dec_osv f c)).
Proof.
  intros F. assert (Z : sound f no_osv).
  { split; [repeat constructor|]. intros t I. assert (t = "") as -> by (cbn in I; destruct I as [I|[I|[]]]; now symmetry). split; [reflexivity|apply F]. }
  unfold dec_osv. destruct (parse c) as [j|] eqn:P; [|exact Z].
  pose proof (osv_keeps f F j no_osv (parse_norm _ _ P) Z) as K. destruct (d_osv f j no_osv). exact K.
Qed.

(** ** a member of the wrong type spoils only itself *)
Definition mild {A} (d : decoder A) : Prop := forall v a, snd (d v a) <> Ended.
Lemma string_mild : mild d_string. Proof. intros [] a; discriminate. Qed.
Lemma worse_mild a b : a <> Ended -> b <> Ended -> worse a b <> Ended. Proof. destruct a, b; cbn; congruence. Qed.
Lemma list_mild {A} (d : decoder A) zero : mild d -> mild (d_list d zero).
Proof.
  intros M [| | | |l|] a; try discriminate. cbn [d_list]. induction l as [|v l IH]; cbn [d_elems]; [discriminate|]. specialize (M v zero).
  destruct (d v zero) as [x st], (d_elems d zero l) as [r st']. cbn [snd] in *. pose proof (worse_mild st st' M IH). destruct st; [exact H|exact H|now elim M].
Qed.
Lemma members_mild {S} (set : string -> decoder S) l : (forall k v, In (k, v) l -> forall s, snd (set (fold_key k) v s) <> Ended) ->
  forall s, snd (d_members set l s) <> Ended.
Proof.
  induction l as [|[k v] l IH]; intros H s; cbn [d_members]; [discriminate|]. pose proof (H k v (or_introl eq_refl) s) as M.
  destruct (set (fold_key k) v s) as [s1 st]. specialize (IH (fun k' v' I => H k' v' (or_intror I)) s1). destruct (d_members set l s1) as [s2 st']. cbn [snd] in *.
  pose proof (worse_mild st st' M IH). destruct st; [exact H0|exact H0|now elim M].
Qed.
Lemma struct_mild {S} (set : string -> decoder S) : (forall k, mild (set k)) -> mild (d_struct set).
Proof. intros M [] a; try discriminate. apply members_mild. intros k v _ s. apply M. Qed.
Lemma on_mild {S A} (d : decoder A) (get : S -> A) put : mild d -> mild (on d get put).
Proof. intros M v s. unfold on. specialize (M v (get s)). destruct (d v (get s)). exact M. Qed.
Lemma skip_mild {S} : mild (fun (_ : json) (s : S) => (s, Fine)). Proof. intros v s. discriminate. Qed.
Ltac mild_tac := apply struct_mild; intros k; repeat match goal with |- mild (if ?b then _ else _) => destruct b end; try apply skip_mild; apply on_mild.
Lemma opkg_mild : mild d_opkg. Proof. mild_tac; apply string_mild. Qed.
Lemma event_mild : mild d_event. Proof. mild_tac; apply string_mild. Qed.
Lemma range_mild : mild d_range. Proof. mild_tac; [apply string_mild|apply list_mild, event_mild]. Qed.
Lemma affected_mild : mild d_affected. Proof. mild_tac; [apply opkg_mild|apply list_mild, string_mild|apply list_mild, range_mild]. Qed.

Lemma kept_any {S A} set k d (get : S -> A) : is_field set k d get -> forall l s, ~ keyed k l -> get (fst (d_members set l s)) = get s.
Proof.
  intros [_ F]. induction l as [|[k' v] l IH]; intros s N; cbn [d_members]; [reflexivity|]. destruct (not_keyed_cons _ _ _ _ N) as [N1 N2].
  specialize (F (fold_key k') v s N1). destruct (set (fold_key k') v s) as [s1 st]. cbn [fst] in F. specialize (IH s1 N2). destruct (d_members set l s1) as [s2 st']. cbn [fst] in IH.
  destruct st; cbn [fst]; congruence.
Qed.
Lemma members_split {S} (set : string -> decoder S) l1 l2 s : snd (d_members set l1 s) <> Ended ->
  fst (d_members set (l1 ++ l2) s) = fst (d_members set l2 (fst (d_members set l1 s))).
Proof.
  revert s. induction l1 as [|[k v] l1 IH]; intros s M; [reflexivity|]. cbn [app d_members] in *. destruct (set (fold_key k) v s) as [s1 st].
  specialize (IH s1). destruct (d_members set l1 s1) as [s2 st2], (d_members set (l1 ++ l2) s1) as [s3 st3]. cbn [fst snd] in *.
  destruct st; cbn [fst snd] in *; try (apply IH; destruct st2; cbn in M; congruence). now elim M.
Qed.
Lemma any_final {S A} set k d (get : S -> A) z Q a : is_field set k d get -> field_ok d z Q -> forall l m s,
  (forall k v, In (k, v) l -> forall s, snd (set (fold_key k) v s) <> Ended) -> get s = z -> member l k m -> Q m a -> get (fst (d_members set l s)) = a.
Proof.
  intros F (_ & O0 & O1 & _) l m s M G ME H. destruct ME as [N|l1 k' v l2 -> K N1 N2].
  - rewrite (kept_any _ _ _ _ F _ _ N), G. symmetry. now apply O0.
  - rewrite members_split by (apply members_mild; intros k0 v0 I s0; apply M; apply in_or_app; now left).
    pose proof (kept_any _ _ _ _ F l1 s N1) as E1. set (s1 := fst (d_members set l1 s)) in *. cbn [d_members]. rewrite K.
    pose proof (proj1 F v s1) as [F1 F2]. rewrite E1, G in F1, F2. rewrite (O1 _ _ H) in F1, F2. destruct (set k v s1) as [s2 st]. cbn [fst snd] in F1, F2. subst st.
    pose proof (kept_any _ _ _ _ F l2 s2 N2) as E2. destruct (d_members set l2 s2). cbn [fst] in *. congruence.
Qed.
Lemma any_value {S A} set k d (get : S -> A) z : is_field set k d get -> forall l v s,
  (forall k v, In (k, v) l -> forall s, snd (set (fold_key k) v s) <> Ended) -> get s = z -> member l k (Some v) -> get (fst (d_members set l s)) = fst (d v z).
Proof.
  intros F l v s M G ME. inversion ME as [|l1 k' v' l2 E K N1 N2 HV]; subst.
  rewrite members_split by (apply members_mild; intros k0 v0 I s0; apply M; apply in_or_app; now left).
  pose proof (kept_any _ _ _ _ F l1 s N1) as E1. set (s1 := fst (d_members set l1 s)) in *. cbn [d_members].
  pose proof (M k' v (in_or_app _ _ _ (or_intror (in_eq _ _))) s1) as E. 
  pose proof (proj1 F v s1) as [F1 F2]. destruct (set (fold_key k') v s1) as [s2 st]. cbn [fst snd] in *.
  pose proof (kept_any _ _ _ _ F l2 s2 N2) as E2. destruct (d_members set l2 s2). destruct st; cbn [fst] in *; congruence.
Qed.
Lemma texts_any js x : Forall2 text_or_blank js x -> fst (d_elems d_string "" js) = x.
Proof.
  induction 1 as [|v s js x [-> |[N ->]] _ IH]; [reflexivity| |]; cbn [d_elems].
  - cbn [d_string]. destruct (d_elems d_string "" js). cbn [fst] in *. now subst.
  - destruct v; try (destruct (N _ eq_refl)); cbn [d_string]; destruct (d_elems d_string "" js); cbn [fst] in *; now subst.
Qed.
Theorem spoiled f c l pu mo wi p m w : parse c = Some (JObj l) ->
  member l "published" pu -> member l "modified" mo -> member l "withdrawn" wi -> time_is f pu p -> time_is f mo m -> maybe_time f wi w ->
  let o := fst (dec_osv f c) in
  o_published o = p /\ o_modified o = m /\ o_withdrawn o = w
  /\ (forall v s, member l "id" v -> says v s -> o_id o = s)
  /\ (forall v s, member l "summary" v -> says v s -> o_summary o = s)
  /\ (forall v s, member l "details" v -> says v s -> o_details o = s)
  /\ (forall v x, member l "aliases" v -> texts v x -> o_aliases o = x)
  /\ (forall js x, member l "aliases" (Some (JArr js)) -> Forall2 text_or_blank js x -> o_aliases o = x)
  /\ (forall v x, member l "affected" v -> lists affected_doc v x -> o_affected o = x).
Proof.
  intros P MP MM MW TP TM TW. cbv zeta. unfold dec_osv. rewrite P.
  assert (X : fst (let '(o, st) := d_osv f (JObj l) no_osv in (o, match st with Fine => false | _ => true end)) = fst (d_osv f (JObj l) no_osv)) by (destruct (d_osv f (JObj l) no_osv); reflexivity).
  rewrite X. clear X. unfold d_osv. set (set := fun k : string => _). cbn [d_struct].
  assert (F1 : is_field set "id" d_string o_id) by (unfold set; field_tac).
  assert (F2 : is_field set "aliases" (d_list d_string "") o_aliases) by (unfold set; field_tac).
  assert (F3 : is_field set "summary" d_string o_summary) by (unfold set; field_tac).
  assert (F4 : is_field set "published" (d_time f) o_published) by (unfold set; field_tac).
  assert (F5 : is_field set "modified" (d_time f) o_modified) by (unfold set; field_tac).
  assert (F6 : is_field set "withdrawn" (d_time_ptr f) o_withdrawn) by (unfold set; field_tac).
  assert (F7 : is_field set "details" d_string o_details) by (unfold set; field_tac).
  assert (F8 : is_field set "affected" (d_list d_affected (mkAff (mkOPkg "" "") [] [])) o_affected) by (unfold set; field_tac).
  pose proof (list_ok _ _ _ says_value) as LS. pose proof (list_ok _ _ _ affected_ok) as LA. pose proof (time_ok f) as T. pose proof (time_ptr_ok f) as T'.
  assert (M : forall k v, In (k, v) l -> forall s, snd (set (fold_key k) v s) <> Ended).
  { intros k v I s.
    assert (A : forall A (d : decoder A) (get : OSV -> A) key z Q x m0, is_field set key d get -> field_ok d z Q -> member l key m0 -> Q m0 x -> fold_key k = key -> snd (set (fold_key k) v s) <> Ended).
    { intros A d get key z Q x m0 F O ME H E. pose proof (member_in _ _ _ _ _ ME I E) as ->. rewrite E, (proj2 (proj1 F v s)).
      destruct O as (St & _ & O1 & _). rewrite (St v _ z), (O1 _ _ H). discriminate. }
    destruct (string_dec (fold_key k) "published") as [KA|KB1]; [exact (A _ _ _ _ _ _ _ _ F4 T MP TP KA)|].
    destruct (string_dec (fold_key k) "modified") as [KA|KB2]; [exact (A _ _ _ _ _ _ _ _ F5 T MM TM KA)|].
    destruct (string_dec (fold_key k) "withdrawn") as [KA|KB3]; [exact (A _ _ _ _ _ _ _ _ F6 T' MW TW KA)|]. clear A.
    unfold set. repeat match goal with |- context [if seqb ?a ?b then _ else _] => destruct (seqb_spec a b) end; try contradiction;
      first [apply on_mild; first [apply string_mild|apply list_mild, string_mild|apply list_mild, affected_mild]|discriminate]. }
  split; [|split; [|split; [|split; [|split; [|split; [|split; [|split]]]]]]].
  - exact (any_final _ _ _ _ _ _ _ F4 T l _ no_osv M eq_refl MP TP).
  - exact (any_final _ _ _ _ _ _ _ F5 T l _ no_osv M eq_refl MM TM).
  - exact (any_final _ _ _ _ _ _ _ F6 T' l _ no_osv M eq_refl MW TW).
  - intros v s A B. exact (any_final _ _ _ _ _ _ _ F1 string_ok l _ no_osv M eq_refl A B).
  - intros v s A B. exact (any_final _ _ _ _ _ _ _ F3 string_ok l _ no_osv M eq_refl A B).
  - intros v s A B. exact (any_final _ _ _ _ _ _ _ F7 string_ok l _ no_osv M eq_refl A B).
  - intros v s A B. exact (any_final _ _ _ _ _ _ _ F2 LS l _ no_osv M eq_refl A B).
  - intros js x A B. rewrite (any_value _ _ _ _ _ F2 l _ no_osv M eq_refl A). now apply texts_any.
  - intros v s A B. exact (any_final _ _ _ _ _ _ _ F8 LA l _ no_osv M eq_refl A B).
Qed.
