(** Decoding succeeds on documents of the right type, and on no others. *)
From Verif Require Import GoStr GoStrFacts Types Json JsonDec JsonRound Base64 Base64Spec Base64Proofs MemDB Scan NumSpec FitSpec NumProofs LockIO ListLocks KeyLocks NpmLock Api ZipDB OsvJson LockJson GoMap.
From Verif Require JsonSpec JsonGrammar NpmProofs Lockfile Warnings.

Definition takes {A} (o : option A) : Prop := o <> None.
Lemma takes_some {A} (a : A) : takes (Some a).
Proof. discriminate. Qed.
Lemma takes_none {A} : ~ takes (@None A).
Proof. intros H. now apply H. Qed.
Lemma takes_map {A B} (f : A -> B) o : takes (option_map f o) <-> takes o.
Proof. destruct o; unfold takes; cbn; split; congruence. Qed.

(** ** the pieces *)
Lemma string_takes v old : takes (dec_string v old) <-> a_text v.
Proof.
  unfold takes, a_text. destruct v; cbn [dec_string]; split; intros H; try congruence; eauto; try (destruct H as [H|[? H]]; congruence).
Qed.
Lemma int_takes v old : takes (dec_int v old) <-> an_int v.
Proof.
  unfold an_int. split.
  - intros H. destruct v as [|b|lit|s|l|l]; try (now elim H); [now left|]. right. destruct (dec_int (JNum lit) old) as [z|] eqn:E; [|now elim H].
    apply dec_int_some in E as [W I]. eauto.
  - intros [->|(lit & z & -> & W & I)]; [discriminate|]. rewrite (proj2 (dec_int_some lit z old)) by auto. discriminate.
Qed.
Lemma all_takes {A} (d : json -> option A) l : takes (dec_all d l) <-> forall x, In x l -> takes (d x).
Proof.
  induction l as [|x l IH]; cbn [dec_all]; [split; [intros _ y []|discriminate]|]. destruct (d x) as [a|] eqn:E.
  - destruct (dec_all d l) as [r|].
    + split; [|discriminate]. intros _ y [->|I]; [rewrite E; discriminate|]. apply IH; [discriminate|exact I].
    + split; [intros H; now elim H|]. intros H. exfalso. apply (proj2 IH); [|reflexivity]. intros y I. apply H. now right.
  - split; [intros H; now elim H|]. intros H. elim (H x (or_introl eq_refl)). exact E.
Qed.
Lemma list_takes {A} (d : json -> option A) (P : json -> Prop) v : (forall x, takes (d x) <-> P x) -> (takes (dec_list d v) <-> a_list_of P v).
Proof.
  intros H. unfold a_list_of. destruct v as [|b|lit|s|l|l]; cbn [dec_list].
  - split; [now left|discriminate].
  - split; [intros T; now elim T|intros [E|(l & E & _)]; discriminate].
  - split; [intros T; now elim T|intros [E|(l & E & _)]; discriminate].
  - split; [intros T; now elim T|intros [E|(l & E & _)]; discriminate].
  - rewrite all_takes. split; [intros T; right; exists l; split; [reflexivity|]; intros x I; now apply H, T|].
    intros [E|(l' & E & T)]; [discriminate|]. injection E as <-. intros x I. now apply H, T.
  - split; [intros T; now elim T|intros [E|(l' & E & _)]; discriminate].
Qed.
(** folds that stop at the first failure *)
Lemma fold_takes {S X} (f : S -> X -> option S) (P : X -> Prop) l : (forall x s, In x l -> (takes (f s x) <-> P x)) ->
  forall s, takes (fold_left (fun acc x => match acc with None => None | Some s => f s x end) l (Some s)) <-> forall x, In x l -> P x.
Proof.
  assert (N : forall l, fold_left (fun acc x => match acc with None => None | Some s => f s x end) l None = None) by (intros l0; induction l0; auto).
  induction l as [|x l IH]; intros H s; cbn [fold_left]; [split; [intros _ y []|discriminate]|]. pose proof (H x s (or_introl eq_refl)) as Hx. destruct (f s x) as [s'|].
  - rewrite IH by (intros; apply H; now right). split; [|intros T y I; apply T; now right]. intros T y [<-|I]; [apply Hx; discriminate|now apply T].
  - rewrite N. split; [intros T; now elim T|]. intros T. exfalso. apply (proj2 Hx); [apply T; now left|reflexivity].
Qed.
Lemma map_takes {A} (d : json -> option A) (P : json -> Prop) v : (forall k x l, v = JObj l -> In (k, x) l -> (takes (d x) <-> P x)) -> (takes (dec_map d v) <-> a_map_of P v).
Proof.
  intros H. unfold a_map_of. destruct v as [|b|lit|s|l|l]; cbn [dec_map].
  - split; [now left|discriminate].
  - split; [intros T; now elim T|intros [E|(l & E & _)]; discriminate].
  - split; [intros T; now elim T|intros [E|(l & E & _)]; discriminate].
  - split; [intros T; now elim T|intros [E|(l & E & _)]; discriminate].
  - split; [intros T; now elim T|intros [E|(l' & E & _)]; discriminate].
  - rewrite takes_map.
    rewrite (fold_takes (fun m kv => match d (snd kv) with Some a => Some (map_set (fst kv) a m) | None => None end) (fun kv => P (snd kv))).
    + split; [intros T; right; exists l; split; [reflexivity|]; intros k x I; exact (T (k, x) I)|]. intros [E|(l' & E & T)]; [discriminate|]. injection E as <-. intros [k x] I. eapply T, I.
    + intros [k x] m I. cbn [fst snd]. rewrite <- (H k x l eq_refl I). destruct (d x); unfold takes; split; congruence.
Qed.
Lemma struct_takes {S} (set : string -> json -> S -> option S) (fields : list (string * (json -> Prop))) s0 v :
  (forall k x s l, v = JObj l -> In (k, x) l -> (takes (set (fold_key k) x s) <-> forall P, In (fold_key k, P) fields -> P x)) ->
  (takes (dec_struct set s0 v) <-> a_struct fields v).
Proof.
  intros H. unfold a_struct. destruct v as [|b|lit|s|l|l]; cbn [dec_struct].
  - split; [now left|discriminate].
  - split; [intros T; now elim T|intros [E|(l & E & _)]; discriminate].
  - split; [intros T; now elim T|intros [E|(l & E & _)]; discriminate].
  - split; [intros T; now elim T|intros [E|(l & E & _)]; discriminate].
  - split; [intros T; now elim T|intros [E|(l' & E & _)]; discriminate].
  - unfold dec_fields. rewrite (fold_takes _ (fun kv => forall P, In (fold_key (fst kv), P) fields -> P (snd kv))).
    + split; [intros T; right; exists l; split; [reflexivity|]; intros k x P I Q; exact (T (k, x) I P Q)|].
      intros [E|(l' & E & T)]; [discriminate|]. injection E as <-. intros [k x] I P Q. eapply T; eauto.
    + intros [k x] s I. exact (H k x s l eq_refl I).
Qed.
(** deciding which field a key is *)
Lemma fields_nil (k : string) (x : json) : (forall P : json -> Prop, In (k, P) [] -> P x) <-> True.
Proof. split; [auto|intros _ P []]. Qed.
Lemma fields_hit (k : string) (Q : json -> Prop) fs x : (forall P, ~ In (k, P) fs) -> ((forall P : json -> Prop, In (k, P) ((k, Q) :: fs) -> P x) <-> Q x).
Proof. intros N. split; [intros H; apply H; now left|]. intros q P [E|I]; [now injection E as <-|]. now elim (N P). Qed.
Lemma fields_miss (k k' : string) (Q : json -> Prop) fs x : k <> k' -> ((forall P : json -> Prop, In (k, P) ((k', Q) :: fs) -> P x) <-> (forall P : json -> Prop, In (k, P) fs -> P x)).
Proof. intros N. split; intros H P I; [apply H; now right|]. destruct I as [E|I]; [now injection E as -> _|now apply H]. Qed.

Ltac off := intros ?P ?I; cbn [In] in I; repeat match goal with H : _ \/ _ |- _ => destruct H as [H|H]; [discriminate|] end; exact I.
Ltac step_field :=
  match goal with
  | |- context [if seqb ?K ?a then _ else _] =>
      let N := fresh "N" in destruct (seqb_spec K a) as [->|N]; [rewrite fields_hit by off|rewrite (fields_miss _ _ _ _ _ N)]
  end.
Ltac by_fields := let k := fresh "k" in intros k; intros; generalize (fold_key k); clear; intros K;
  repeat first [step_field; [rewrite ?takes_map|]|rewrite fields_nil; split; [auto|intros; apply takes_some]].

(** ** lockfiles *)
Lemma npm_dependency_eq v : npm_dependency v <-> a_struct [("version", a_text); ("dependencies", a_map_of npm_dependency)] v.
Proof.
  split.
  - intros [|l A B]; [now left|]. right. exists l. split; [reflexivity|]. intros k x P I [E|[E|[]]]; injection E as E1 <-; [now apply (A k)|]. apply (B k); auto.
  - intros [->|(l & -> & H)]; [constructor|]. constructor.
    + intros k x I E. apply (H k x _ I). rewrite E. now left.
    + intros k x I E. apply (H k x (a_map_of npm_dependency) I). rewrite E. right. now left.
Qed.
Lemma npm_dep_takes v : takes (dec_npm_dep v) <-> npm_dependency v.
Proof.
  enough (G : (takes (dec_npm_dep v) <-> npm_dependency v) /\ forall l k x, v = JObj l -> In (k, x) l -> (takes (dec_npm_dep x) <-> npm_dependency x)) by apply G.
  induction v as [|b|n|s|l IH|l IH] using json_ind'; (split; [|intros l0 k x E I; try discriminate E]);
    try (rewrite NpmProofs.npm_dep_eq, npm_dependency_eq; apply struct_takes; intros k x s0 l0 E; discriminate E);
    [rewrite NpmProofs.npm_dep_eq, npm_dependency_eq|injection E as <-; rewrite Forall_forall in IH; exact (proj1 (IH (k, x) I))].
  apply struct_takes. intros k x d l0 E I. injection E as <-. rewrite Forall_forall in IH. destruct (IH (k, x) I) as [_ B]. cbn [snd] in B. revert B. generalize (fold_key k). clear. intros K B.
  step_field; [rewrite takes_map; apply string_takes|]. step_field; [|rewrite fields_nil; split; [auto|intros; apply takes_some]]. rewrite takes_map.
  apply map_takes. intros n y m E I. eapply B; eauto.
Qed.
Lemma npm_takes v : takes (dec_npm v) <-> npm_type v.
Proof.
  apply struct_takes. by_fields; [apply int_takes| |].
  - apply map_takes. intros. apply npm_dep_takes.
  - apply map_takes. intros _ y _ _ _. apply struct_takes. by_fields; try apply string_takes. apply map_takes. intros. apply string_takes.
Qed.
Lemma nuget_takes v : takes (dec_nuget v) <-> nuget_type v.
Proof.
  apply struct_takes. intros k x [z m]. revert k x. intros k x l _ _. revert k. by_fields; [apply int_takes|].
  apply map_takes. intros _ y _ _ _. apply map_takes. intros _ w _ _ _. apply struct_takes. by_fields. apply string_takes.
Qed.
Lemma pipenv_takes v : takes (dec_pipenv v) <-> pipenv_type v.
Proof.
  assert (G : forall y, takes (dec_map dec_pipenv_package y) <-> a_map_of (a_struct [("version", a_text)]) y).
  { intros y. apply map_takes. intros _ w _ _ _. apply struct_takes. by_fields. apply string_takes. }
  apply struct_takes. intros k x [a b] l _ _. revert k. revert G. intros G k. generalize (fold_key k). intros K.
  do 2 (step_field; [rewrite takes_map; apply G|]). rewrite fields_nil. split; [auto|intros; apply takes_some].
Qed.
Lemma bun_takes v : takes (dec_bun v) <-> bun_type v.
Proof.
  unfold dec_bun. rewrite takes_map. apply struct_takes. intros k x [z m] l _ _. revert k. by_fields; [apply int_takes|].
  apply map_takes. intros _ y _ _ _. apply list_takes. intros w. rewrite <- any_ok_iff. destruct (any_ok w); unfold takes; split; congruence.
Qed.
Lemma composer_takes v : takes (dec_composer v) <-> composer_type v.
Proof.
  assert (G : forall y, takes (dec_list dec_composer_package y) <-> a_list_of composer_package_type y).
  { intros y. apply list_takes. intros w. apply struct_takes. by_fields; try apply string_takes. apply struct_takes. by_fields. apply string_takes. }
  apply struct_takes. intros k x [a b] l _ _. generalize (fold_key k). intros K.
  do 2 (step_field; [rewrite takes_map; apply G|]). rewrite fields_nil. split; [auto|intros; apply takes_some].
Qed.
Lemma renv_takes v : takes (dec_renv v) <-> renv_type v.
Proof.
  apply struct_takes. by_fields. apply map_takes. intros _ y _ _ _. apply struct_takes. by_fields; apply string_takes.
Qed.
Lemma batch_takes body : takes (dec_batch body) <-> exists v, JsonSpec.json_doc body v /\ batch_type v.
Proof.
  assert (G : forall v, takes (dec_struct (fun k v s => if seqb k "results" then dec_list dec_result v else Some s) [] v) <-> batch_type v).
  { intros v. apply struct_takes. by_fields. apply list_takes. intros w. apply struct_takes. by_fields. apply list_takes. intros u. apply struct_takes. by_fields. apply string_takes. }
  unfold dec_batch. destruct (Json.parse body) as [j|] eqn:P.
  - rewrite G. apply JsonGrammar.parse_iff in P. split; [eauto|]. intros (v & T & B). apply JsonGrammar.parse_iff in T, P. rewrite T in P. now injection P as ->.
  - split; [intros H; now elim H|]. intros (v & T & _). apply JsonGrammar.parse_iff in T. congruence.
Qed.

(** ** advisories *)
Definition fine {A} (p : A * status) : Prop := snd p = Fine.
Lemma worse_fine a b : worse a b = Fine <-> a = Fine /\ b = Fine.
Proof. destruct a, b; cbn; intuition discriminate. Qed.
Lemma d_string_fine v old : fine (d_string v old) <-> a_text v.
Proof. unfold fine, a_text. destruct v; cbn; split; intros H; try discriminate; eauto; destruct H as [H|[? H]]; discriminate. Qed.
Lemma d_elems_fine {A} (d : decoder A) zero l : fine (d_elems d zero l) <-> forall x, In x l -> fine (d x zero).
Proof.
  unfold fine. induction l as [|x l IH]; cbn [d_elems]; [split; [intros _ y []|reflexivity]|]. destruct (d x zero) as [a st] eqn:E.
  destruct (d_elems d zero l) as [r st'] eqn:R. cbn [snd] in IH.
  assert (G : snd (match st with Ended => ([a], Ended) | _ => (a :: r, worse st st') end) = Fine <-> st = Fine /\ st' = Fine) by (destruct st; cbn [snd]; rewrite ?worse_fine; intuition discriminate).
  replace (match st with Ended => ([a], Ended) | _ => let '(r0, st'0) := (r, st') in (a :: r0, worse st st'0) end) with (match st with Ended => ([a], Ended) | _ => (a :: r, worse st st') end) by now destruct st.
  rewrite G, IH. split; [|intros H; split; [specialize (H x (or_introl eq_refl)); now rewrite E in H|intros y I; apply H; now right]].
  intros [-> H] y [<-|I]; [now rewrite E|now apply H].
Qed.
Lemma d_list_fine {A} (d : decoder A) zero (P : json -> Prop) v old : (forall x, fine (d x zero) <-> P x) -> (fine (d_list d zero v old) <-> a_list_of P v).
Proof.
  intros H. unfold a_list_of. destruct v as [|b|lit|s|l|l]; cbn [d_list].
  - split; [now left|reflexivity].
  - split; [discriminate|intros [E|(l & E & _)]; discriminate].
  - split; [discriminate|intros [E|(l & E & _)]; discriminate].
  - split; [discriminate|intros [E|(l & E & _)]; discriminate].
  - rewrite d_elems_fine. split; [intros T; right; exists l; split; [reflexivity|]; intros x I; now apply H, T|].
    intros [E|(l' & E & T)]; [discriminate|]. injection E as <-. intros x I. now apply H, T.
  - split; [discriminate|intros [E|(l' & E & _)]; discriminate].
Qed.
Lemma d_members_fine {S} (set : string -> decoder S) (P : string -> json -> Prop) l : (forall k x s, fine (set (fold_key k) x s) <-> P k x) ->
  forall s, fine (d_members set l s) <-> forall k x, In (k, x) l -> P k x.
Proof.
  intros H. unfold fine in *. induction l as [|[k x] l IH]; intros s; cbn [d_members]; [split; [intros _ y z []|reflexivity]|]. specialize (H k x s). destruct (set (fold_key k) x s) as [s1 st].
  specialize (IH s1). destruct (d_members set l s1) as [s2 st']. cbn [snd] in *.
  assert (G : snd (match st with Ended => (s1, Ended) | _ => (s2, worse st st') end) = Fine <-> st = Fine /\ st' = Fine) by (destruct st; cbn [snd]; rewrite ?worse_fine; intuition discriminate).
  replace (match st with Ended => (s1, Ended) | _ => let '(r0, st'0) := (s2, st') in (r0, worse st st'0) end) with (match st with Ended => (s1, Ended) | _ => (s2, worse st st') end) by now destruct st.
  rewrite G, IH. split; [|intros T; split; [apply H, T; now left|intros y z I; apply T; now right]].
  intros [F T] y z [E|I]; [injection E as <- <-; now apply H|now apply T].
Qed.
Lemma d_struct_fine {S} (set : string -> decoder S) (fields : list (string * (json -> Prop))) v old :
  (forall k x s, fine (set (fold_key k) x s) <-> forall P, In (fold_key k, P) fields -> P x) -> (fine (d_struct set v old) <-> a_struct fields v).
Proof.
  intros H. unfold a_struct. destruct v as [|b|lit|s|l|l]; cbn [d_struct].
  - split; [now left|reflexivity].
  - split; [discriminate|intros [E|(l & E & _)]; discriminate].
  - split; [discriminate|intros [E|(l & E & _)]; discriminate].
  - split; [discriminate|intros [E|(l & E & _)]; discriminate].
  - split; [discriminate|intros [E|(l' & E & _)]; discriminate].
  - rewrite (d_members_fine set (fun k x => forall P, In (fold_key k, P) fields -> P x)) by exact H.
    split; [intros T; right; exists l; split; [reflexivity|]; intros k x P I Q; exact (T k x I P Q)|].
    intros [E|(l' & E & T)]; [discriminate|]. injection E as <-. intros k x I P Q. eapply T; eauto.
Qed.
Lemma on_fine {S A} (d : decoder A) (get : S -> A) put v s : fine (on d get put v s) <-> fine (d v (get s)).
Proof. unfold on. destruct (d v (get s)). reflexivity. Qed.
Ltac step_field' :=
  match goal with
  | |- context [(if seqb ?K ?a then _ else _) _ _] =>
      let N := fresh "N" in destruct (seqb_spec K a) as [->|N]; [rewrite fields_hit by off|rewrite (fields_miss _ _ _ _ _ N)]
  end.
Ltac by_fields' := let k := fresh "k" in intros k; intros; generalize (fold_key k); clear; intros K;
  repeat first [step_field'; [rewrite ?on_fine|]|rewrite fields_nil; split; [auto|intros; reflexivity]].
Section Osv.
Variable rfc3339 : string -> option string.
Lemma d_time_fine v old : fine (d_time rfc3339 v old) <-> a_time rfc3339 v.
Proof.
  unfold fine, a_time. destruct v as [|b|lit|s|l|l]; cbn [d_time]; try (split; [discriminate|intros [E|(? & ? & E & _)]; discriminate]); [split; [now left|reflexivity]|].
  destruct (rfc3339 s) as [t|] eqn:E; cbn [snd].
  - split; [intros _; right; eauto|reflexivity].
  - split; [discriminate|]. intros [H|(s' & t & H & R)]; [discriminate|]. injection H as <-. congruence.
Qed.
Lemma d_time_ptr_fine v old : fine (d_time_ptr rfc3339 v old) <-> a_time rfc3339 v.
Proof.
  rewrite <- (d_time_fine v (match old with Some t => t | None => "" end)). unfold d_time_ptr, fine. destruct v as [|b|lit|s|l|l]; [reflexivity|destruct (d_time rfc3339 _ _) as [t st]; reflexivity..].
Qed.
Lemma d_osv_fine v old : fine (d_osv rfc3339 v old) <-> osv_type rfc3339 v.
Proof.
  apply d_struct_fine. intros k x s. generalize (fold_key k). intros K.
  repeat (step_field'; [rewrite on_fine|]);
    [apply d_string_fine|apply d_list_fine; intros; apply d_string_fine|apply d_string_fine|apply d_time_fine|apply d_time_fine|apply d_time_ptr_fine|apply d_string_fine| |rewrite fields_nil; split; [auto|intros; reflexivity]].
  apply d_list_fine. intros y. apply d_struct_fine. by_fields'.
  - apply d_struct_fine. by_fields'; apply d_string_fine.
  - apply d_list_fine. intros z. apply d_string_fine.
  - apply d_list_fine. intros z. apply d_struct_fine. by_fields'; [apply d_string_fine|]. apply d_list_fine. intros w. apply d_struct_fine. by_fields'; apply d_string_fine.
Qed.
Lemma osv_takes content : snd (dec_osv rfc3339 content) = false <-> exists v, JsonSpec.json_doc content v /\ osv_type rfc3339 v.
Proof.
  unfold dec_osv. destruct (Json.parse content) as [j|] eqn:P.
  - apply JsonGrammar.parse_iff in P. pose proof (d_osv_fine j no_osv) as F. unfold fine in F. destruct (d_osv rfc3339 j no_osv) as [o st]. cbn [snd] in *.
    transitivity (st = Fine); [destruct st; intuition discriminate|]. rewrite F. split; [eauto|]. intros (v & T & B). apply JsonGrammar.parse_iff in T, P. rewrite T in P. now injection P as ->.
  - cbn [snd]. split; [discriminate|]. intros (v & T & _). apply JsonGrammar.parse_iff in T. congruence.
Qed.
End Osv.

(** ** caches *)
Lemma byte_fine v old : snd (dec_byte v old) = false <-> a_byte v.
Proof.
  unfold a_byte. destruct v as [|b|lit|s|l|l]; cbn [dec_byte snd]; try (split; [discriminate|intros [E|(? & ? & E & _)]; discriminate]); [split; [now left|reflexivity]|].
  destruct (seqb_spec lit "") as [->|N]; cbn [negb andb].
  - split; [discriminate|]. intros [E|(l & n & E & D & _)]; [discriminate|]. injection E as <-. apply decimal_iff in D as [D _]. congruence.
  - destruct (str_forall is_digit lit) eqn:D; cbn [andb].
    + destruct (Z.leb_spec (digits_val 0 lit) 255) as [L|L]; cbn [snd].
      * split; [|reflexivity]. intros _. right. exists lit, (digits_val 0 lit). split; [reflexivity|]. split; [now apply decimal_of|exact L].
      * split; [discriminate|]. intros [E|(l & n & E & D' & M)]; [discriminate|]. injection E as <-. apply decimal_iff in D' as (_ & _ & <-). lia.
    + split; [discriminate|]. intros [E|(l & n & E & D' & M)]; [discriminate|]. injection E as <-. apply decimal_iff in D' as (_ & D' & _). congruence.
Qed.
Lemma byte_array_fine l : forall old, snd (dec_byte_array l old) = false <-> forall x, In x l -> a_byte x.
Proof.
  induction l as [|v l IH]; intros old; cbn [dec_byte_array]; [split; [intros _ x []|reflexivity]|].
  destruct (match old with "" => (zero, "") | String c t => (c, t) end) as [c0 old']. specialize (IH old'). pose proof (byte_fine v c0) as B. destruct (dec_byte v c0) as [c b], (dec_byte_array l old') as [r b'].
  cbn [snd] in *. rewrite orb_false_iff, B, IH. split; [intros [H T] x [<-|I]; auto|]. intros H. split; [apply H; now left|intros x I; apply H; now right].
Qed.
Lemma cache_field_fine c bad k x : snd (dec_cache_field (c, bad) (k, x)) = false <->
  bad = false /\ forall P, In (fold_key k, P) [("url", a_text); ("etag", a_text); ("date", a_text); ("body", bytes_type)] -> P x.
Proof.
  assert (T : forall old, (if match dec_string x old with Some s => true | None => false end then bad else true) = false <-> bad = false /\ a_text x).
  { intros old. rewrite <- (string_takes x old). destruct (dec_string x old); unfold takes; [intuition discriminate|]. split; [discriminate|intros [_ H]; congruence]. }
  unfold dec_cache_field. cbn [fst snd]. generalize (fold_key k). intros K.
  do 3 (step_field; [match goal with |- context [dec_string x ?o] => rewrite <- (T o) end; destruct (dec_string x _); reflexivity|]). step_field; [|rewrite fields_nil; cbn [snd]; tauto].
  unfold bytes_type, a_list_of. destruct x as [|b|lit|s|l|l]; cbn [snd].
  - intuition.
  - split; [discriminate|intros [_ [(s & b0 & E & _)|[E|(l & E & _)]]]; discriminate].
  - split; [discriminate|intros [_ [(s & b0 & E & _)|[E|(l & E & _)]]]; discriminate].
  - pose proof (dec_iff s) as D. destruct (b64_dec s) as [b|]; cbn [snd].
    + split; [intros ->; split; [reflexivity|]; left; exists s, b; split; [reflexivity|]; now apply D|tauto].
    + split; [discriminate|intros [_ [(s' & b0 & E & R)|[E|(l & E & _)]]]; try discriminate]. injection E as <-. apply D in R. discriminate.
  - match goal with |- context [dec_byte_array l ?o] => pose proof (byte_array_fine l o) as B; destruct (dec_byte_array l o) as [r e] end. cbn [snd] in *. rewrite orb_false_iff, B.
    split; [intros [-> H]; split; [reflexivity|]; right; right; eauto|]. intros [-> [(s & b0 & E & _)|[E|(l' & E & H)]]]; try discriminate. injection E as <-. auto.
  - split; [discriminate|intros [_ [(s & b0 & E & _)|[E|(l' & E & _)]]]; discriminate].
Qed.
Lemma cache_fields_fine l : forall c bad, snd (fold_left dec_cache_field l (c, bad)) = false <->
  bad = false /\ forall k x, In (k, x) l -> forall P, In (fold_key k, P) [("url", a_text); ("etag", a_text); ("date", a_text); ("body", bytes_type)] -> P x.
Proof.
  induction l as [|[k x] l IH]; intros c bad; cbn [fold_left]; [cbn [snd]; split; [intros E; split; [exact E|intros k x []]|now intros [-> _]]|].
  pose proof (cache_field_fine c bad k x) as F. destruct (dec_cache_field (c, bad) (k, x)) as [c' bad']. cbn [snd] in F. rewrite IH, F.
  split; [intros [[-> A] B]; split; [reflexivity|]; intros k' x' [E|I]; [injection E as <- <-; exact A|exact (B k' x' I)]|].
  intros [-> H]. split; [split; [reflexivity|]; apply (H k x); now left|]. intros k' x' I. apply (H k' x'). now right.
Qed.
Lemma cache_takes content : snd (dec_cache content) = false <-> exists v, JsonSpec.json_doc content v /\ cache_type v.
Proof.
  unfold dec_cache. destruct (Json.parse content) as [j|] eqn:P.
  - apply JsonGrammar.parse_iff in P. transitivity (cache_type j).
    + unfold cache_type, a_struct. destruct j as [|b|lit|s|l|l]; cbn [snd]; try (split; [discriminate|intros [E|(l' & E & _)]; discriminate]); [split; [now left|reflexivity]|].
      pose proof (cache_fields_fine l no_cache_fields false) as F. destruct (fold_left dec_cache_field l (no_cache_fields, false)) as [c bad]. cbn [snd] in *. rewrite F. split.
      * intros [_ H]. right. exists l. split; [reflexivity|]. intros k x Q I. exact (H k x I Q).
      * intros [E|(l' & E & H)]; [discriminate|]. injection E as <-. split; [reflexivity|]. intros k x I Q. exact (H k x Q I).
    + split; [eauto|]. intros (v & T & B). apply JsonGrammar.parse_iff in T, P. rewrite T in P. now injection P as ->.
  - cbn [snd]. split; [discriminate|]. intros (v & T & _). apply JsonGrammar.parse_iff in T. congruence.
Qed.

(** ** lockfile parsers: they fail exactly on files of another type *)
Lemma pointer_takes {A} (dec : json -> option A) (P : json -> Prop) content : (forall v, takes (dec v) <-> P v) -> P JNull ->
  (takes (json_pointer dec content) <-> exists v, JsonSpec.json_doc content v /\ P v).
Proof.
  intros H N. unfold json_pointer. destruct (Json.parse content) as [j|] eqn:E.
  - transitivity (P j).
    + destruct j; [split; [intros _; exact N|discriminate]|rewrite takes_map; apply H..].
    + apply JsonGrammar.parse_iff in E. split; [eauto|]. intros (v & T & B). apply JsonGrammar.parse_iff in T, E. rewrite T in E. now injection E as ->.
  - split; [intros T; now elim T|]. intros (v & T & _). apply JsonGrammar.parse_iff in T. congruence.
Qed.
Lemma decoded_fails {A} files (decode : string -> option A) path k content (Q : Prop) : files path = Text content false -> (takes (decode content) <-> Q) ->
  (forall a, k a <> fails_with (FParse path)) -> (decoded files decode path k = fails_with (FParse path) <-> ~ Q).
Proof.
  intros F H K. unfold decoded, read_file. rewrite F, <- H. destruct (decode content) as [a|]; unfold takes; split; intros X; [elim (K a X)|elim X; discriminate|intros Y; now elim Y|reflexivity].
Qed.
Lemma deref_not {A} (k : A -> pres) f : (forall a, k a <> fails_with f) -> forall p, deref p k <> fails_with f.
Proof. intros H [a|]; [apply H|discriminate]. Qed.
Lemma packages_not {A} (r : res A) (g : A -> list Pkg) f : rbind r (fun a => packages_of (g a)) <> fails_with f.
Proof. destruct r; discriminate. Qed.
Section Locks.
Variable it : Iter.
Variable files : string -> txt.
Variables path content : string.
Hypothesis F : files path = Text content false.
Lemma npm_refused url : parse_npm_lock it files url path = fails_with (FParse path) <-> ~ of_type npm_type content.
Proof. eapply decoded_fails; [exact F|apply pointer_takes; [apply npm_takes|now left]|]. apply deref_not. intros a. apply packages_not. Qed.
Lemma nuget_refused : parse_nuget_lock it files path = fails_with (FParse path) <-> ~ of_type nuget_type content.
Proof. eapply decoded_fails; [exact F|apply pointer_takes; [apply nuget_takes|now left]|]. apply deref_not. intros [z m]. destruct (negb _); discriminate. Qed.
Lemma pipenv_refused : parse_pipenv_lock it files path = fails_with (FParse path) <-> ~ of_type pipenv_type content.
Proof.
  eapply decoded_fails; [exact F|apply pointer_takes; [apply pipenv_takes|now left]|]. apply deref_not. intros [a b]. unfold parse_pipenv.
  destruct (pipenv_loop _ _) as [m|]; [|discriminate]. cbn [rbind]. destruct (pipenv_loop _ _); discriminate.
Qed.
Lemma bun_refused jsonc : parse_bun_lock it files jsonc path = fails_with (FParse path) <-> ~ of_type bun_type (jsonc content).
Proof. eapply decoded_fails; [exact F|apply pointer_takes; [apply bun_takes|now left]|]. apply deref_not. intros m. destruct (bun_packages _); discriminate. Qed.
Lemma composer_refused : parse_composer_lock files path = fails_with (FParse path) <-> ~ of_type composer_type content.
Proof. eapply decoded_fails; [exact F|apply pointer_takes; [apply composer_takes|now left]|]. apply deref_not. intros [a b]. discriminate. Qed.
Lemma renv_refused : parse_renv_lock it files path = fails_with (FParse path) <-> ~ of_type renv_type content.
Proof. eapply decoded_fails; [exact F|apply pointer_takes; [apply renv_takes|now left]|]. apply deref_not. intros m. discriminate. Qed.
End Locks.

Lemma batch_refused pkgs b : batch_reply pkgs (HResp 200 (Some b)) = inl ENotJSON <-> ~ of_type batch_type b.
Proof.
  unfold of_type. rewrite <- batch_takes. cbn [batch_reply]. change (negb (200 =? 200)%Z) with false. cbv iota. destruct (dec_batch b) as [vs|]; unfold takes.
  - destruct (negb _); split; try discriminate; intros H; exfalso; apply H; discriminate.
  - split; [intros _ H; now apply H|reflexivity].
Qed.
Lemma fetch_errors rfc3339 h : let dec := OsvJson.dec_osv rfc3339 in
  (snd (fetch_reply dec h) = None <-> exists b, h = HResp 200 (Some b) /\ of_type (osv_type rfc3339) b)
  /\ (snd (fetch_reply dec h) = Some ENotJSON <-> exists b, h = HResp 200 (Some b) /\ ~ of_type (osv_type rfc3339) b).
Proof.
  cbv zeta. destruct h as [| |n body]; cbn [fetch_reply snd]; try (split; (split; [discriminate|intros (b & E & _); discriminate])).
  destruct (Z.eqb_spec n 200) as [->|N]; cbn [negb]; [|split; (split; [discriminate|intros (b & E & _); injection E; congruence])].
  destruct body as [b|]; [|split; (split; [discriminate|intros (b & E & _); discriminate])].
  pose proof (osv_takes rfc3339 b) as T. fold (of_type (osv_type rfc3339) b) in T. destruct (OsvJson.dec_osv rfc3339 b) as [o bad]. cbn [snd] in *.
  assert (G : forall Q : string -> Prop, (exists x, HResp 200 (Some b) = HResp 200 (Some x) /\ Q x) <-> Q b).
  { intros Q. split; [intros (x & E & q); now injection E as ->|eauto]. }
  rewrite !G, <- T. destruct bad; intuition discriminate.
Qed.
Lemma cache_complaint path json_err content : let t := ("Failed to parse cache from " +s+ path +s+ ": " +s+ json_err content +s+ Lockfile.newline)%string in
  (of_type cache_type content -> Warnings.cache_says json_err path (Some content) = []) /\ (~ of_type cache_type content -> Warnings.cache_says json_err path (Some content) = [t]).
Proof.
  cbv zeta. unfold Warnings.cache_says. pose proof (cache_takes content) as T. fold (of_type cache_type content) in T. destruct (snd (dec_cache content)).
  - split; [intros H; apply T in H; discriminate|reflexivity].
  - split; [reflexivity|]. intros H. elim H. now apply T.
Qed.
