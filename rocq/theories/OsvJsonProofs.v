From Verif Require Import GoStr GoStrFacts Types Json JsonFacts JsonRound MemDB OsvJson OsvJsonSpec.

(** ** decoders *)
Lemma worse_fine a b : worse a b = Fine <-> a = Fine /\ b = Fine.
Proof. destruct a, b; cbn; split; intros H; try discriminate H; try (destruct H; discriminate); auto. Qed.
(** the status does not depend on the old value *)
Definition steady {A} (d : decoder A) : Prop := forall v a b, snd (d v a) = snd (d v b).
Lemma elems_fine {A} (d : decoder A) zero l r : d_elems d zero l = (r, Fine) <-> Forall2 (fun v a => d v zero = (a, Fine)) l r.
Proof.
  revert r. induction l as [|v l IH]; intros r; cbn [d_elems].
  - split; [intros [= <-]; constructor|intros F; inversion F; reflexivity].
  - destruct (d v zero) as [a st] eqn:D. destruct (d_elems d zero l) as [r' st'] eqn:E. split.
    + intros H. assert (st = Fine /\ st' = Fine /\ r = a :: r') as (-> & -> & ->).
      { destruct st; injection H as <- W; try discriminate W; destruct st'; try discriminate W; auto. }
      constructor; [exact D|]. now apply IH.
    + intros F. inversion F as [|? b ? r2 D' F']; subst. rewrite D' in D. injection D as <- <-. apply IH in F'. injection F' as -> ->. reflexivity.
Qed.
Lemma d_string_steady : steady d_string. Proof. intros []; reflexivity. Qed.
Lemma d_list_steady {A} (d : decoder A) zero : steady (d_list d zero). Proof. intros []; reflexivity. Qed.
Lemma d_time_steady f : steady (d_time f). Proof. intros [| | |s| |] x y; try reflexivity; cbn; destruct (f s); reflexivity. Qed.
Lemma d_time_ptr_steady f : steady (d_time_ptr f).
Proof. intros [| | |s| |] x y; try reflexivity; cbn; destruct (f s); reflexivity. Qed.
Lemma on_steady {S A} (d : decoder A) (get : S -> A) put : steady d -> steady (on d get put).
Proof. intros H v a b. unfold on. specialize (H v (get a) (get b)). destruct (d v (get a)), (d v (get b)). exact H. Qed.
Lemma members_steady {S} (set : string -> decoder S) : (forall k, steady (set k)) -> forall l a b, snd (d_members set l a) = snd (d_members set l b).
Proof.
  intros H. induction l as [|[k v] l IH]; intros a b; cbn [d_members]; [reflexivity|].
  specialize (H (fold_key k) v a b). destruct (set (fold_key k) v a) as [a1 s1], (set (fold_key k) v b) as [b1 s2]. cbn [snd] in H. subst s2.
  specialize (IH a1 b1). destruct (d_members set l a1), (d_members set l b1). cbn [snd] in IH. subst. destruct s1; reflexivity.
Qed.
Lemma struct_steady {S} (set : string -> decoder S) : (forall k, steady (set k)) -> steady (d_struct set).
Proof. intros H []; try reflexivity. intros a b. cbn. now apply members_steady. Qed.
Lemma skip_steady {S} : steady (fun (_ : json) (s : S) => (s, Fine)). Proof. intros v a b. reflexivity. Qed.

(** a struct is fine iff its members are *)
Lemma members_cons_fine {S} (set : string -> decoder S) k v l s s2 :
  d_members set ((k, v) :: l) s = (s2, Fine) <-> exists s1, set (fold_key k) v s = (s1, Fine) /\ d_members set l s1 = (s2, Fine).
Proof.
  cbn [d_members]. destruct (set (fold_key k) v s) as [s1 st]. destruct (d_members set l s1) as [s3 st'] eqn:E. split.
  - intros H. exists s1. destruct st; injection H as <- W; try discriminate W; destruct st'; try discriminate W; auto.
  - intros (x & [= <- ->] & H). rewrite E in H. injection H as <- ->. reflexivity.
Qed.
Lemma members_fine {S} (set : string -> decoder S) l : (forall k v, In (k, v) l -> forall s, snd (set (fold_key k) v s) = Fine) ->
  forall s0, exists s, d_members set l s0 = (s, Fine).
Proof.
  induction l as [|[k v] l IH]; intros H s0; [exists s0; reflexivity|].
  destruct (set (fold_key k) v s0) as [s1 st] eqn:E. destruct (IH (fun k' v' I => H k' v' (or_intror I)) s1) as [s2 E2].
  exists s2. apply members_cons_fine. exists s1. split; [|exact E2]. rewrite E. f_equal. specialize (H k v (or_introl eq_refl) s0). now rewrite E in H.
Qed.
Lemma members_app {S} (set : string -> decoder S) l1 l2 s s2 :
  d_members set (l1 ++ l2) s = (s2, Fine) <-> exists s1, d_members set l1 s = (s1, Fine) /\ d_members set l2 s1 = (s2, Fine).
Proof.
  revert s. induction l1 as [|[k v] l1 IH]; intros s; [cbn; split; [eauto|intros (s1 & [= <-] & H); exact H]|].
  cbn [app]. rewrite members_cons_fine. setoid_rewrite members_cons_fine. setoid_rewrite IH. firstorder.
Qed.
(** one field of it *)
Definition is_field {S A} (set : string -> decoder S) (k : string) (d : decoder A) (get : S -> A) : Prop :=
  (forall v s, get (fst (set k v s)) = fst (d v (get s)) /\ snd (set k v s) = snd (d v (get s)))
  /\ (forall k' v s, k' <> k -> get (fst (set k' v s)) = get s).
Lemma not_keyed_cons k k' v l : ~ keyed k ((k', v) :: l) -> fold_key k' <> k /\ ~ keyed k l.
Proof. intros H. split; [intros E; apply H; exists k', v; split; [now left|exact E]|]. intros (q & w & I & E). apply H. exists q, w. split; [now right|exact E]. Qed.
Lemma field_kept {S A} set k d (get : S -> A) : is_field set k d get -> forall l s s1, ~ keyed k l -> d_members set l s = (s1, Fine) -> get s1 = get s.
Proof.
  intros [_ F]. induction l as [|[k' v] l IH]; intros s s1 N H; [now injection H as <-|].
  apply members_cons_fine in H as (s2 & E & H). destruct (not_keyed_cons _ _ _ _ N) as [N1 N2]. rewrite (IH _ _ N2 H).
  specialize (F (fold_key k') v s N1). now rewrite E in F.
Qed.
Lemma field_final {S A} set k d (get : S -> A) : is_field set k d get -> forall l m s s1, member l k m -> d_members set l s = (s1, Fine) ->
  match m with None => get s1 = get s | Some v => d v (get s) = (get s1, Fine) end.
Proof.
  intros F l m s s1 M H. destruct M as [N|l1 k' v l2 -> K N1 N2].
  - eapply field_kept; eauto.
  - apply members_app in H as (s2 & H1 & H2). apply members_cons_fine in H2 as (s3 & E & H2).
    pose proof (field_kept _ _ _ _ F _ _ _ N1 H1) as E1. pose proof (field_kept _ _ _ _ F _ _ _ N2 H2) as E2.
    rewrite E2, <- E1. destruct F as [F _]. specialize (F v s2). rewrite K in E. rewrite E in F. cbn [fst snd] in F. destruct F as [A1 A2]. rewrite A1.
    destruct (d v (get s2)); cbn in *. congruence.
Qed.
Lemma member_of l k : NoDup (map (fun kv => fold_key (fst kv)) l) -> exists m, member l k m.
Proof.
  induction l as [|[k' v] l IH]; intros N; [exists None; constructor; intros (q & w & [] & _)|]. inversion N as [|? ? N1 N2]; subst.
  assert (NK : ~ keyed (fold_key k') l).
  { intros (q & w & I & E). apply N1. cbn [fst]. rewrite <- E. apply in_map_iff. exists (q, w). auto. }
  destruct (string_dec (fold_key k') k) as [<-|D].
  - exists (Some v). apply mb_some with [] k' l; auto. intros (q & w & [] & _).
  - destruct (IH N2) as [m M]. exists m. destruct M as [NM|l1 q w l2 -> E A B].
    + constructor. intros (q & w & [I|I] & E); [injection I as <- <-; contradiction|]. apply NM. exists q, w. auto.
    + apply mb_some with ((k', v) :: l1) q l2; auto. intros (q' & w' & [I|I] & E'); [injection I as <- <-; contradiction|]. apply A. exists q', w'. auto.
Qed.
Lemma member_in l k k' v m : member l k m -> In (k', v) l -> fold_key k' = k -> m = Some v.
Proof.
  intros M I E. destruct M as [N|l1 q w l2 -> K N1 N2]; [exfalso; apply N; exists k', v; auto|].
  apply in_app_or in I as [I|[I|I]]; [exfalso; apply N1; exists k', v; auto|now injection I as <- <-|exfalso; apply N2; exists k', v; auto].
Qed.
Lemma member_value l k v : member l k (Some v) -> exists k', In (k', v) l.
Proof. intros M. inversion M as [|l1 k' w l2 E _ _ _]; subst. exists k'. apply in_or_app. right. now left. Qed.
Lemma repeats_in l k v : no_repeats (JObj l) -> In (k, v) l -> no_repeats v.
Proof. cbn. intros [_ F] I. induction l as [|[q w] l IH]; [destruct I|]. destruct F as [F1 F2]. destruct I as [[= <- <-]|I]; auto. Qed.
Lemma repeats_arr l : no_repeats (JArr l) -> Forall no_repeats l.
Proof. cbn. induction l as [|v l IH]; intros F; constructor; destruct F; auto. Qed.

(** ** fields: [Q] is what the document says, [d] what is decoded *)
Definition field_ok {A} (d : decoder A) (zero : A) (Q : option json -> A -> Prop) : Prop :=
  steady d
  /\ (forall a, Q None a <-> a = zero)
  /\ (forall v a, Q (Some v) a -> d v zero = (a, Fine))
  /\ (forall v a, no_repeats v -> d v zero = (a, Fine) -> Q (Some v) a).
Definition value_ok {A} (d : decoder A) (zero : A) (P : json -> A -> Prop) : Prop :=
  (forall v a, P v a -> d v zero = (a, Fine)) /\ (forall v a, no_repeats v -> d v zero = (a, Fine) -> P v a).
Lemma unset_some v : unset (Some v) <-> v = JNull.
Proof. unfold unset. split; [intros [H|H]; congruence|intros ->; now right]. Qed.
Lemma string_ok : field_ok d_string "" says.
Proof.
  split; [exact d_string_steady|]. unfold says, unset. split; [|split].
  - intros a. split; [intros [H|[_ H]]; [discriminate|exact H]|intros ->; right; auto].
  - intros v a [H|[[H|H] ->]]; [injection H as ->; reflexivity|discriminate|injection H as ->; reflexivity].
  - intros v a _ H. destruct v; try discriminate H; injection H as <-; [right; auto|now left].
Qed.
Lemma list_ok {A} (d : decoder A) zero P : value_ok d zero P -> field_ok (d_list d zero) [] (lists P).
Proof.
  intros [P1 P2]. split; [apply d_list_steady|]. unfold lists, unset. split; [|split].
  - intros a. split; [intros [(js & H & _)|[_ H]]; [discriminate|exact H]|intros ->; right; auto].
  - intros v a [(js & H & F)|[[H|H] ->]]; [|discriminate|injection H as ->; reflexivity].
    injection H as ->. cbn [d_list]. apply elems_fine. induction F; constructor; auto.
  - intros v a N H. destruct v as [| | | |l|]; try discriminate H; [injection H as <-; right; auto|]. left. exists l. split; [reflexivity|].
    cbn [d_list] in H. apply elems_fine in H. apply repeats_arr in N. induction H; inversion N; subst; constructor; auto.
Qed.
Lemma says_value : value_ok d_string "" (fun j s => says (Some j) s).
Proof. destruct string_ok as (_ & _ & A & B). split; auto. Qed.
Lemma time_ok f : field_ok (d_time f) "" (time_is f).
Proof.
  split; [apply d_time_steady|]. unfold time_is, unset. split; [|split].
  - intros a. split; [intros [(s & H & _)|[_ H]]; [discriminate|exact H]|intros ->; right; auto].
  - intros v a [(s & H & F)|[[H|H] ->]]; [|discriminate|injection H as ->; reflexivity]. injection H as ->. cbn. now rewrite F.
  - intros v a _ H. destruct v as [| | |s| |]; try discriminate H; [injection H as <-; right; auto|]. cbn in H. destruct (f s) eqn:E; [|discriminate]. injection H as <-. left. eauto.
Qed.
Lemma time_ptr_ok f : field_ok (d_time_ptr f) None (maybe_time f).
Proof.
  split; [apply d_time_ptr_steady|]. unfold maybe_time, unset. split; [|split].
  - intros a. split; [intros [(s & x & H & _)|[_ H]]; [discriminate|exact H]|intros ->; right; auto].
  - intros v a [(s & x & H & F & ->)|[[H|H] ->]]; [|discriminate|injection H as ->; reflexivity]. injection H as ->. cbn. now rewrite F.
  - intros v a _ H. destruct v as [| | |s| |]; try discriminate H; [injection H as <-; right; auto|]. cbn in H. destruct (f s) eqn:E; [|discriminate]. injection H as <-. left. eauto.
Qed.
(** from a decoded struct to what a field says, and back *)
Lemma field_says {S A} set k d (get : S -> A) Q l m s s1 : is_field set k d get -> field_ok d (get s) Q -> no_repeats (JObj l) ->
  member l k m -> d_members set l s = (s1, Fine) -> Q m (get s1).
Proof.
  intros F (_ & Q0 & _ & Q2) N M H. pose proof (field_final set k d get F l m s s1 M H) as R. destruct m as [v|]; [|now apply Q0].
  apply Q2; [|exact R]. destruct (member_value _ _ _ M) as [k' I]. eapply repeats_in; eauto.
Qed.
Lemma field_said {S A} set k d (get : S -> A) Q l m s s1 a : is_field set k d get -> field_ok d (get s) Q ->
  member l k m -> Q m a -> d_members set l s = (s1, Fine) -> get s1 = a.
Proof.
  intros F (_ & Q0 & Q1 & _) M QA H. pose proof (field_final set k d get F l m s s1 M H) as R. destruct m as [v|].
  - rewrite (Q1 _ _ QA) in R. congruence.
  - apply Q0 in QA. congruence.
Qed.
Lemma field_fine {S A} set k d (get : S -> A) Q l m zero k' v : is_field set k d get -> field_ok d zero Q -> member l k m -> (exists a, Q m a) ->
  In (k', v) l -> fold_key k' = k -> forall s, snd (set (fold_key k') v s) = Fine.
Proof.
  intros [F _] (ST & _ & Q1 & _) M (a & QA) I E s. rewrite (member_in _ _ _ _ _ M I E) in QA. rewrite E. rewrite (proj2 (F v s)).
  rewrite (ST v _ zero), (Q1 _ _ QA). reflexivity.
Qed.

(** ** the structs *)
Ltac field_tac := split;
  [ intros v s; cbv beta; repeat match goal with |- context [if seqb ?a ?b then _ else _] => let r := eval vm_compute in (seqb a b) in change (seqb a b) with r; cbv iota end;
    unfold on; match goal with |- context [let '(_, _) := ?e in _] => destruct e end; split; reflexivity
  | intros k' v s NK; cbv beta;
    repeat match goal with |- context [if seqb ?a ?b then _ else _] => destruct (seqb_spec a b) as [->|]; [try congruence; unfold on; match goal with |- context [let '(_, _) := ?e in _] => destruct e end; reflexivity|] end;
    reflexivity ].
Ltac steady_tac lems := apply struct_steady; intros k; repeat match goal with |- context [if seqb ?a ?b then _ else _] => destruct (seqb a b) end;
  first [apply on_steady; first [apply d_string_steady|apply d_list_steady|apply d_time_steady|apply d_time_ptr_steady|lems]|apply skip_steady].
Lemma d_opkg_steady : steady d_opkg. Proof. steady_tac fail. Qed.
Lemma struct_null {S} (set : string -> decoder S) s : d_struct set JNull s = (s, Fine). Proof. reflexivity. Qed.
Lemma opkg_ok : field_ok d_opkg (mkOPkg "" "") package_doc.
Proof.
  split; [exact d_opkg_steady|]. unfold d_opkg. set (set := fun k : string => _).
  assert (F1 : is_field set "name" d_string op_name) by (unfold set; field_tac).
  assert (F2 : is_field set "ecosystem" d_string op_eco) by (unfold set; field_tac).
  split; [|split].
  - intros a. split; [intros H; now inversion H|intros ->; constructor; now left].
  - intros v a H. inversion H as [? U|l p name eco M1 M2 S1 S2]; subst.
    + apply unset_some in U as ->. reflexivity.
    + cbn [d_struct]. destruct (members_fine set l) with (s0 := mkOPkg "" "") as [s1 E].
      { intros k v I s. destruct (string_dec (fold_key k) "name") as [K|K1]; [eapply (field_fine set _ _ _ _ l _ "" k v F1 string_ok M1); eauto|].
        destruct (string_dec (fold_key k) "ecosystem") as [K|K2]; [eapply (field_fine set _ _ _ _ l _ "" k v F2 string_ok M2); eauto|].
        unfold set. destruct (seqb_spec (fold_key k) "name"); [contradiction|]. destruct (seqb_spec (fold_key k) "ecosystem"); [contradiction|]. reflexivity. }
      rewrite E. f_equal. pose proof (field_said set _ _ _ _ l _ (mkOPkg "" "") s1 _ F1 string_ok M1 S1 E) as E1.
      pose proof (field_said set _ _ _ _ l _ (mkOPkg "" "") s1 _ F2 string_ok M2 S2 E) as E2. destruct s1, a; cbn in *; congruence.
  - intros v a N H. destruct v as [| | | | |l]; try discriminate H; [injection H as <-; constructor; now right|]. cbn [d_struct] in H.
    destruct (member_of l "name" (proj1 N)) as [m1 M1]. destruct (member_of l "ecosystem" (proj1 N)) as [m2 M2].
    apply pd_doc with m1 m2; auto; [exact (field_says set _ _ _ _ l _ (mkOPkg "" "") a F1 string_ok N M1 H)|exact (field_says set _ _ _ _ l _ (mkOPkg "" "") a F2 string_ok N M2 H)].
Qed.
Ltac try_field set l F O M k v := match type of F with is_field _ ?key _ _ =>
  destruct (string_dec (fold_key k) key) as [?K|?K]; [eapply (field_fine set _ _ _ _ l _ _ k v F O M); eauto|] end.
Ltac other_key set := unfold set; repeat match goal with |- context [if seqb ?a ?b then _ else _] => destruct (seqb_spec a b); [contradiction|] end; reflexivity.
Ltac said set l z s1 F O M S E := let E' := fresh "V" in pose proof (field_said set _ _ _ _ l _ z s1 _ F O M S E) as E'.
Ltac saying set l z a F O N M H := exact (field_says set _ _ _ _ l _ z a F O N M H).
Lemma event_ok : value_ok d_event (mkEv "" "" "") event_doc.
Proof.
  unfold d_event. set (set := fun k : string => _). set (z := mkEv "" "" "").
  assert (F1 : is_field set "introduced" d_string introduced) by (unfold set; field_tac).
  assert (F2 : is_field set "fixed" d_string fixed) by (unfold set; field_tac).
  assert (F3 : is_field set "last_affected" d_string last_affected) by (unfold set; field_tac).
  split.
  - intros v e H. inversion H as [|l ? a b c M1 M2 M3 S1 S2 S3]; subst; [reflexivity|].
    cbn [d_struct]. destruct (members_fine set l) with (s0 := z) as [s1 E].
    { intros k v I s. try_field set l F1 string_ok M1 k v. try_field set l F2 string_ok M2 k v. try_field set l F3 string_ok M3 k v. other_key set. }
    rewrite E. f_equal. said set l z s1 F1 string_ok M1 S1 E. said set l z s1 F2 string_ok M2 S2 E. said set l z s1 F3 string_ok M3 S3 E.
    destruct s1, e; cbn in *; congruence.
  - intros v a N H. destruct v as [| | | | |l]; try discriminate H; [injection H as <-; constructor|]. cbn [d_struct] in H.
    destruct (member_of l "introduced" (proj1 N)) as [m1 M1]. destruct (member_of l "fixed" (proj1 N)) as [m2 M2].
    destruct (member_of l "last_affected" (proj1 N)) as [m3 M3]. apply ed_doc with m1 m2 m3; auto.
    + saying set l z a F1 string_ok N M1 H.
    + saying set l z a F2 string_ok N M2 H.
    + saying set l z a F3 string_ok N M3 H.
Qed.
Lemma range_ok : value_ok d_range (mkRange "" []) range_doc.
Proof.
  unfold d_range. set (set := fun k : string => _). set (z := mkRange "" []).
  assert (F1 : is_field set "type" d_string r_type) by (unfold set; field_tac).
  assert (F2 : is_field set "events" (d_list d_event (mkEv "" "" "")) r_events) by (unfold set; field_tac).
  pose proof (list_ok _ _ _ event_ok) as LO. split.
  - intros v e H. inversion H as [|l ? a b M1 M2 S1 S2]; subst; [reflexivity|].
    cbn [d_struct]. destruct (members_fine set l) with (s0 := z) as [s1 E].
    { intros k v I s. try_field set l F1 string_ok M1 k v. try_field set l F2 LO M2 k v. other_key set. }
    rewrite E. f_equal. said set l z s1 F1 string_ok M1 S1 E. said set l z s1 F2 LO M2 S2 E. destruct s1, e; cbn in *; congruence.
  - intros v a N H. destruct v as [| | | | |l]; try discriminate H; [injection H as <-; constructor|]. cbn [d_struct] in H.
    destruct (member_of l "type" (proj1 N)) as [m1 M1]. destruct (member_of l "events" (proj1 N)) as [m2 M2]. apply rd_doc with m1 m2; auto.
    + saying set l z a F1 string_ok N M1 H.
    + saying set l z a F2 LO N M2 H.
Qed.
Lemma affected_ok : value_ok d_affected (mkAff (mkOPkg "" "") [] []) affected_doc.
Proof.
  unfold d_affected. set (set := fun k : string => _). set (z := mkAff (mkOPkg "" "") [] []).
  assert (F1 : is_field set "package" d_opkg a_pkg) by (unfold set; field_tac).
  assert (F2 : is_field set "versions" (d_list d_string "") a_versions) by (unfold set; field_tac).
  assert (F3 : is_field set "ranges" (d_list d_range (mkRange "" [])) a_ranges) by (unfold set; field_tac).
  pose proof (list_ok _ _ _ says_value) as LS. pose proof (list_ok _ _ _ range_ok) as LR. split.
  - intros v e H. inversion H as [|l ? a b c M1 M2 M3 S1 S2 S3]; subst; [reflexivity|].
    cbn [d_struct]. destruct (members_fine set l) with (s0 := z) as [s1 E].
    { intros k v I s. try_field set l F1 opkg_ok M1 k v. try_field set l F2 LS M2 k v. try_field set l F3 LR M3 k v. other_key set. }
    rewrite E. f_equal. said set l z s1 F1 opkg_ok M1 S1 E. said set l z s1 F2 LS M2 S2 E. said set l z s1 F3 LR M3 S3 E.
    destruct s1, e; cbn in *; congruence.
  - intros v a N H. destruct v as [| | | | |l]; try discriminate H; [injection H as <-; constructor|]. cbn [d_struct] in H.
    destruct (member_of l "package" (proj1 N)) as [m1 M1]. destruct (member_of l "versions" (proj1 N)) as [m2 M2].
    destruct (member_of l "ranges" (proj1 N)) as [m3 M3]. apply ad_doc with m1 m2 m3; auto.
    + saying set l z a F1 opkg_ok N M1 H.
    + saying set l z a F2 LS N M2 H.
    + saying set l z a F3 LR N M3 H.
Qed.
Lemma osv_ok f : value_ok (d_osv f) no_osv (osv_doc f).
Proof.
  unfold d_osv. set (set := fun k : string => _). set (z := no_osv).
  assert (F1 : is_field set "id" d_string o_id) by (unfold set; field_tac).
  assert (F2 : is_field set "aliases" (d_list d_string "") o_aliases) by (unfold set; field_tac).
  assert (F3 : is_field set "summary" d_string o_summary) by (unfold set; field_tac).
  assert (F4 : is_field set "published" (d_time f) o_published) by (unfold set; field_tac).
  assert (F5 : is_field set "modified" (d_time f) o_modified) by (unfold set; field_tac).
  assert (F6 : is_field set "withdrawn" (d_time_ptr f) o_withdrawn) by (unfold set; field_tac).
  assert (F7 : is_field set "details" d_string o_details) by (unfold set; field_tac).
  assert (F8 : is_field set "affected" (d_list d_affected (mkAff (mkOPkg "" "") [] [])) o_affected) by (unfold set; field_tac).
  pose proof (list_ok _ _ _ says_value) as LS. pose proof (list_ok _ _ _ affected_ok) as LA. pose proof (time_ok f) as T. pose proof (time_ptr_ok f) as TP. split.
  - intros v e H. inversion H as [|l ? m1 m2 m3 m4 m5 m6 m7 m8 M1 M2 M3 M4 M5 M6 M7 M8 S1 S2 S3 S4 S5 S6 S7 S8]; subst; [reflexivity|].
    cbn [d_struct]. destruct (members_fine set l) with (s0 := z) as [s1 E].
    { intros k v I s. try_field set l F1 string_ok M1 k v. try_field set l F2 LS M2 k v. try_field set l F3 string_ok M3 k v.
      try_field set l F4 T M4 k v. try_field set l F5 T M5 k v. try_field set l F6 TP M6 k v. try_field set l F7 string_ok M7 k v. try_field set l F8 LA M8 k v. other_key set. }
    rewrite E. f_equal. said set l z s1 F1 string_ok M1 S1 E. said set l z s1 F2 LS M2 S2 E. said set l z s1 F3 string_ok M3 S3 E.
    said set l z s1 F4 T M4 S4 E. said set l z s1 F5 T M5 S5 E. said set l z s1 F6 TP M6 S6 E. said set l z s1 F7 string_ok M7 S7 E. said set l z s1 F8 LA M8 S8 E.
    destruct s1, e; cbn in *; congruence.
  - intros v a N H. destruct v as [| | | | |l]; try discriminate H; [injection H as <-; constructor|]. cbn [d_struct] in H.
    destruct (member_of l "id" (proj1 N)) as [m1 M1]. destruct (member_of l "aliases" (proj1 N)) as [m2 M2].
    destruct (member_of l "summary" (proj1 N)) as [m3 M3]. destruct (member_of l "published" (proj1 N)) as [m4 M4].
    destruct (member_of l "modified" (proj1 N)) as [m5 M5]. destruct (member_of l "withdrawn" (proj1 N)) as [m6 M6].
    destruct (member_of l "details" (proj1 N)) as [m7 M7]. destruct (member_of l "affected" (proj1 N)) as [m8 M8].
    apply od_doc with m1 m2 m3 m4 m5 m6 m7 m8; auto.
    + saying set l z a F1 string_ok N M1 H.
    + saying set l z a F2 LS N M2 H.
    + saying set l z a F3 string_ok N M3 H.
    + saying set l z a F4 T N M4 H.
    + saying set l z a F5 T N M5 H.
    + saying set l z a F6 TP N M6 H.
    + saying set l z a F7 string_ok N M7 H.
    + saying set l z a F8 LA N M8 H.
Qed.
Lemma dec_doc f content j o : parse content = Some j -> osv_doc f j o -> dec_osv f content = (o, false).
Proof. intros P D. unfold dec_osv. rewrite P. now rewrite (proj1 (osv_ok f) _ _ D). Qed.
Lemma dec_only f content o : dec_osv f content = (o, false) -> exists j, parse content = Some j /\ (no_repeats j -> osv_doc f j o).
Proof.
  unfold dec_osv. destruct (parse content) as [j|]; [|discriminate]. intros H. exists j. split; [reflexivity|]. intros N.
  destruct (d_osv f j no_osv) as [o' st] eqn:D. destruct st; try discriminate H. injection H as <-. now apply (proj2 (osv_ok f)).
Qed.

(** ** written advisories are read back *)
Lemma members_step {S} (set : string -> decoder S) k v l s s1 : set (fold_key k) v s = (s1, Fine) -> d_members set ((k, v) :: l) s = d_members set l s1.
Proof. intros E. cbn [d_members]. rewrite E. destruct (d_members set l s1) as [s2 []]; reflexivity. Qed.
Lemma on_fine {S A} (d : decoder A) get put v (s : S) a : d v (get s) = (a, Fine) -> on d get put v s = (put a s, Fine).
Proof. intros E. unfold on. now rewrite E. Qed.
Lemma elems_back {A} (d : decoder A) zero (e : A -> json) l : (forall a, In a l -> d (e a) zero = (a, Fine)) -> d_elems d zero (map e l) = (l, Fine).
Proof.
  intros H. apply elems_fine. induction l as [|a l IH]; constructor; [apply H; now left|]. apply IH. intros b I. apply H. now right.
Qed.
Lemma list_back {A} (d : decoder A) zero (e : A -> json) nil l old : nil_ok nil -> (forall a, In a l -> d (e a) zero = (a, Fine)) ->
  d_list d zero (enc_list nil e l) old = (l, Fine).
Proof.
  intros N H. destruct l as [|a l]; [destruct N as [-> | ->]; reflexivity|]. unfold enc_list, d_list. now apply elems_back.
Qed.
Lemma event_back e : d_event (enc_event e) (mkEv "" "" "") = (e, Fine).
Proof.
  destruct e as [a b c]. unfold d_event, enc_event, omit_empty, d_struct. cbn [introduced fixed last_affected].
  set (set := fun k : string => _).
  destruct (seqb_spec a "") as [-> |_], (seqb_spec b "") as [-> |_], (seqb_spec c "") as [-> |_]; cbn [app];
    repeat (erewrite members_step; [|reflexivity]); reflexivity.
Qed.
