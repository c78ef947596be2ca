(** Proofs for MavenLock.v. *)
From Coq Require Import Lia Arith.
From Verif Require Import GoStr GoStrFacts Types Regex RegexFacts RegexIn MemDB MemDBProofs GoMap Scan LockIO LockSpec PkgMapSpec Built CommitProofs YarnProofs GemProofs MavenLock MavenSpec.
Local Open Scope string_scope.

(** ** the document *)
Lemma text_iff cs t : text_in cs t <-> xml_text cs = t.
Proof.
  split.
  - induction 1; cbn; congruence.
  - revert t. induction cs as [|[s|n k] cs IH]; intros t <-; cbn; constructor; now apply IH.
Qed.
Lemma last_snoc n cs x kids : last_child n (cs ++ [x]) kids <-> x = XElem n kids \/ (forall k, x <> XElem n k) /\ last_child n cs kids.
Proof.
  split.
  - intros (a & b & E & N). destruct (@exists_last _ (XElem n kids :: b)) as (b' & y & Y); [discriminate|]. destruct b as [|b0 b1] eqn:B.
    + apply app_inj_tail in E as [_ ->]. now left.
    + rewrite <- B in *. assert (Z : b <> []) by congruence. apply exists_last in Z as (b2 & z & Z). rewrite Z in E. rewrite app_comm_cons, app_assoc in E. apply app_inj_tail in E as [-> ->].
      right. split; [intros k ->; apply (N k); rewrite Z; apply in_or_app; right; now left|]. exists a, b2. split; [reflexivity|]. intros k K. apply (N k). rewrite Z. apply in_or_app. now left.
  - intros [->|[X (a & b & -> & N)]]; [exists cs, []; split; [reflexivity|intros k []]|]. exists a, (b ++ [x])%list. split; [now rewrite <- app_assoc|]. intros k K. apply in_app_or in K as [K|[K|[]]]; [exact (N k K)|exact (X k K)].
Qed.
Lemma last_fun n cs k k' : last_child n cs k -> last_child n cs k' -> k = k'.
Proof.
  induction cs as [|x cs IH] using rev_ind; [intros (a & b & E & _); destruct a; discriminate|]. rewrite !last_snoc. intros [->|[X L]] [Y|[Y M]]; [congruence|destruct (Y _ eq_refl)|destruct (X _ Y)|auto].
Qed.
Lemma no_last n cs kids : no_child n cs -> ~ last_child n cs kids.
Proof. intros N (a & b & -> & _). apply (N kids). apply in_or_app. right. now left. Qed.
Lemma no_snoc n cs x : no_child n (cs ++ [x]) <-> no_child n cs /\ forall k, x <> XElem n k.
Proof.
  split.
  - intros N. split; [intros k K; apply (N k), in_or_app; now left|intros k ->; apply (N k), in_or_app; right; now left].
  - intros [N X] k K. apply in_app_or in K as [K|[K|[]]]; [exact (N k K)|exact (X k K)].
Qed.
Lemma field_fun n cs v w : field n cs v -> field n cs w -> v = w.
Proof.
  intros [[N ->]|(k & L & T)] [[N' ->]|(k' & L' & T')]; [reflexivity|destruct (no_last _ _ _ N L')|destruct (no_last _ _ _ N' L)|]. rewrite (last_fun _ _ _ _ L L') in T. apply text_iff in T, T'. congruence.
Qed.
Lemma field_skip n cs x v : (forall k, x <> XElem n k) -> field n cs v -> field n (cs ++ [x]) v.
Proof.
  intros X [[N ->]|(k & L & T)]; [left; split; [now apply no_snoc|reflexivity]|]. right. exists k. split; [|exact T]. apply last_snoc. auto.
Qed.
Lemma field_set n cs kids : field n (cs ++ [XElem n kids]) (xml_text kids).
Proof. right. exists kids. split; [apply last_snoc; now left|now apply text_iff]. Qed.
Lemma dec_fields cs : let d := dec_dependency cs in field "groupId" cs (md_group d) /\ field "artifactId" cs (md_artifact d) /\ field "version" cs (md_version d).
Proof.
  unfold dec_dependency. induction cs as [|x cs IH] using rev_ind; [repeat split; left; (split; [intros k []|reflexivity])|]. rewrite fold_left_app. cbn [fold_left]. destruct IH as (A & B & C). destruct x as [s|name kids].
  - repeat split; apply field_skip; auto; discriminate.
  - destruct (seqb_spec name "groupId") as [->|N1]; [repeat split; [apply field_set| |]; apply field_skip; auto; discriminate|].
    destruct (seqb_spec name "artifactId") as [->|N2]; [repeat split; [|apply field_set|]; apply field_skip; auto; discriminate|].
    destruct (seqb_spec name "version") as [->|N3]; [repeat split; [| |apply field_set]; apply field_skip; auto; discriminate|].
    repeat split; apply field_skip; auto; congruence.
Qed.
Definition to_dep (d : MavenDep) : dep := mkDep (md_group d) (md_artifact d) (md_version d).
Lemma declares_iff cs d : declares cs d <-> d = to_dep (dec_dependency cs).
Proof.
  destruct (dec_fields cs) as (A & B & C). split.
  - destruct d as [g a v]. intros (A' & B' & C'). cbn in *. unfold to_dep. f_equal; eapply field_fun; eauto.
  - intros ->. repeat split; assumption.
Qed.
Lemma path_app p : forall x y, fold_left (fun css name => flat_map (named name) css) p (x ++ y)%list
  = (fold_left (fun css name => flat_map (named name) css) p x ++ fold_left (fun css name => flat_map (named name) css) p y)%list.
Proof. induction p as [|n p IH]; intros x y; cbn [fold_left]; [reflexivity|]. rewrite flat_map_app. apply IH. Qed.
Lemma path_nil p : fold_left (fun css name => flat_map (named name) css) p [] = [].
Proof. induction p as [|n p IH]; [reflexivity|exact IH]. Qed.
Lemma path_cons n p cs : xml_path (n :: p) cs = fold_left (fun css name => flat_map (named name) css) p (named n cs).
Proof. unfold xml_path. cbn [fold_left flat_map]. now rewrite app_nil_r. Qed.
Lemma at_path_iff p cs es : at_path p cs es <-> xml_path p cs = es.
Proof.
  split.
  - induction 1 as [cs|n p|n p kids r a b A IA B IB|n p s r b B IB|n p m kids r b N B IB]; [reflexivity|rewrite path_cons; apply path_nil| | |]; rewrite path_cons in *.
    + unfold named. cbn [flat_map]. rewrite seqb_refl. rewrite path_app, <- IA, <- IB. reflexivity.
    + exact IB.
    + unfold named. cbn [flat_map]. apply seqb_neq in N. rewrite N. exact IB.
  - intros <-. revert cs. induction p as [|n p IH]; intros cs; [apply ap_here|]. induction cs as [|[s|m kids] cs IHc].
    + rewrite path_cons. cbn. rewrite path_nil. apply ap_nil.
    + apply ap_text. exact IHc.
    + rewrite path_cons in *. destruct (seqb_spec m n) as [->|N].
      * unfold named. cbn [flat_map]. rewrite seqb_refl, path_app. apply ap_in; [apply IH|exact IHc].
      * unfold named. cbn [flat_map]. pose proof (proj2 (seqb_neq _ _) N) as E. rewrite E. apply ap_other; [exact N|exact IHc].
Qed.
Lemma declared_at_iff p cs ds : declared_at p cs ds <-> ds = map to_dep (map dec_dependency (xml_path p cs)).
Proof.
  split.
  - intros (es & A & F). apply at_path_iff in A as ->. induction F as [|e d es ds D F IH]; [reflexivity|]. cbn. apply declares_iff in D as <-. now rewrite <- IH.
  - intros ->. exists (xml_path p cs). split; [now apply at_path_iff|]. induction (xml_path p cs) as [|e es IH]; cbn; constructor; [now apply declares_iff|exact IH].
Qed.
(** properties *)
Lemma props_get cs n : match map_get n (dec_properties cs) with Some v => exists kids, last_child n cs kids /\ text_in kids v | None => no_child n cs end.
Proof.
  unfold dec_properties. induction cs as [|x cs IH] using rev_ind; [intros k []|]. rewrite fold_left_app. cbn [fold_left]. destruct x as [s|m kids].
  - destruct (map_get n _) as [v|]; [destruct IH as (k & L & T); exists k; split; [apply last_snoc; right; split; [discriminate|exact L]|exact T]|apply no_snoc; split; [exact IH|discriminate]].
  - destruct (seqb_spec m n) as [->|N].
    + rewrite map_get_set, seqb_refl. exists kids. split; [apply last_snoc; now left|now apply text_iff].
    + rewrite map_get_set, (proj2 (seqb_neq _ _) N). destruct (map_get n _) as [v|]; [destruct IH as (k & L & T); exists k; split; [apply last_snoc; right; split; [congruence|exact L]|exact T]|apply no_snoc; split; [exact IH|congruence]].
Qed.
Lemma named_last n cs : match named n cs with [] => no_child n cs | x :: l => last_child n cs (last (x :: l) []) end.
Proof.
  induction cs as [|y cs IH] using rev_ind; [intros k []|]. unfold named in *. rewrite flat_map_app. cbn [flat_map]. rewrite app_nil_r. destruct y as [s|m kids].
  - rewrite app_nil_r. destruct (flat_map _ cs); [apply no_snoc; split; [exact IH|discriminate]|apply last_snoc; right; split; [discriminate|exact IH]].
  - destruct (seqb_spec m n) as [->|N].
    + destruct (flat_map _ cs ++ [kids])%list as [|x l] eqn:E; [destruct (flat_map _ cs); discriminate|]. rewrite <- E, last_last. apply last_snoc. now left.
    + rewrite app_nil_r. destruct (flat_map _ cs); [apply no_snoc; split; [exact IH|congruence]|apply last_snoc; right; split; [congruence|exact IH]].
Qed.
Lemma fold_last {A B} (f : A -> B) l : forall b, fold_left (fun _ x => f x) l b = match l with [] => b | x :: l' => f (last (x :: l') x) end.
Proof.
  induction l as [|x l IH] using rev_ind; intros b; [reflexivity|]. rewrite fold_left_app. cbn [fold_left]. destruct (l ++ [x])%list as [|y l'] eqn:E; [destruct l; discriminate|]. f_equal. rewrite <- E. now rewrite last_last.
Qed.
Lemma last_any {A} (x : A) l d d' : last (x :: l) d = last (x :: l) d'.
Proof. revert x. induction l as [|y l IH]; intros x; [reflexivity|]. cbn [last] in *. apply (IH y). Qed.
Lemma property_get cs n : match map_get n (fold_left (fun _ kids => dec_properties kids) (named "properties" cs) []) with Some v => property cs n v | None => no_property cs n end.
Proof.
  rewrite fold_last. pose proof (named_last "properties" cs) as L. destruct (named "properties" cs) as [|x l].
  - intros v (ps & P & _). exact (no_last _ _ _ L P).
  - rewrite (last_any x l x []). set (ps := last (x :: l) []) in *. pose proof (props_get ps n) as G. destruct (map_get n _) as [v|]; [exists ps; auto|]. intros v (ps' & P & kids & K & _). rewrite (last_fun _ _ _ _ P L) in K. exact (no_last _ _ _ G K).
Qed.
Lemma property_fun cs n v w : property cs n v -> property cs n w -> v = w.
Proof.
  intros (ps & P & k & K & T) (ps' & P' & k' & K' & T'). rewrite (last_fun _ _ _ _ P P') in K. rewrite (last_fun _ _ _ _ K K') in T. apply text_iff in T, T'. congruence.
Qed.

(** ** version requirements *)
Lemma dot_iff p : str_forall is_dot p = true <-> has_char LF p = false.
Proof.
  induction p as [|c p IH]; [cbn; tauto|]. cbn. unfold is_dot at 1. rewrite andb_true_iff, orb_false_iff, negb_true_iff, IH, (Ascii.eqb_sym c). reflexivity.
Qed.
Definition is_stop (c : ascii) : bool := Ascii.eqb c "," || is_close c.
Lemma stop_iff c : stop c <-> is_stop c = true.
Proof. unfold stop, is_stop, is_close. rewrite !orb_true_iff, !Ascii.eqb_eq. cbn. intuition. Qed.
Lemma open_iff c : opening c <-> is_open c = true.
Proof. unfold opening, is_open. rewrite orb_true_iff, !Ascii.eqb_eq. tauto. Qed.
Lemma free_iff s : free s <-> str_forall (fun c => negb (is_stop c)) s = true.
Proof.
  split.
  - induction s as [|c s IH]; intros F; [reflexivity|]. cbn. rewrite IH; [|intros a d b ->; exact (F (String c a) d b eq_refl)]. rewrite andb_true_r. apply negb_true_iff. destruct (is_stop c) eqn:S; [|reflexivity]. apply stop_iff in S. destruct (F "" c s eq_refl S).
  - intros H a c b ->. rewrite str_forall_app in H. apply andb_true_iff in H as [_ H]. cbn in H. apply andb_true_iff in H as [H _]. rewrite stop_iff. now destruct (is_stop c).
Qed.
Definition re_req_tail : re := Alts [Chr ","; Cls is_close; Eol].
Definition ends (t : string) : Prop := t = "" \/ exists c r, t = String c r /\ stop c.
Lemma tail_ends b t cs : ms re_req_tail (mkst b t cs) <> [] <-> ends t.
Proof.
  unfold ends. destruct t as [|c t]; cbn -[is_close Ascii.eqb]; [split; [auto|discriminate]|]. split.
  - intros H. right. exists c, t. split; [reflexivity|]. apply stop_iff. unfold is_stop. rewrite (Ascii.eqb_sym c). destruct (Ascii.eqb "," c); [reflexivity|]. cbn -[is_close Ascii.eqb] in H. destruct (is_close c); [reflexivity|]. now destruct H.
  - intros [H|(d & r & E & S)]; [discriminate|]. injection E as <- <-. apply stop_iff in S. unfold is_stop in S. rewrite (Ascii.eqb_sym c) in S. destruct (Ascii.eqb "," c); [discriminate|]. cbn -[is_close Ascii.eqb] in S. rewrite S. discriminate.
Qed.
Lemma tail_caps b t cs x : In x (ms re_req_tail (mkst b t cs)) -> st_caps x = cs.
Proof.
  unfold re_req_tail. intros H. apply in_alt in H as [H|H]; [apply in_chr in H as (r & -> & ->); reflexivity|]. apply in_alt in H as [H|H]; [apply in_cls in H as (c & r & -> & _ & ->); reflexivity|]. apply in_eol in H as [_ ->]. reflexivity.
Qed.
Definition re_req_rest : re := Seqs [Cap 1 (Star false Dot); re_req_tail].
(** after the bracket *)
Lemma rest_first b s cs x l : ms re_req_rest (mkst b s cs) = x :: l ->
  exists v t, s = v +s+ t /\ has_char LF v = false /\ free v /\ ends t /\ st_caps x = (1, v) :: cs.
Proof.
  unfold re_req_rest. rewrite seqs2, seqs1. change (ms (Sq ?a ?b) ?s) with (flat_map (ms b) (ms a s)). change (ms (Cap 1 (Star false Dot)) ?s) with
    (map (fun s' => mkst (st_bot s') (st_rest s') ((1, consumed (st_rest s) (st_rest s')) :: st_caps s')) (ms (Star false Dot) s)).
  unfold Dot. rewrite ms_star_cls_l. cbn [st_rest]. rewrite map_map, flat_map_concat_map, map_map, <- flat_map_concat_map. intros F. apply lazy_first in F as (v & t & l' & -> & V & G & M). exists v, t. split; [reflexivity|].
  split; [now apply dot_iff|].
  assert (E : ends t). { apply (tail_ends (st_bot (at_rest (mkst b (v +s+ t) cs) t)) t ((1, consumed (v +s+ t) t) :: cs)). unfold at_rest in G |- *. cbn [st_rest st_bot st_caps] in G |- *. destruct (Nat.eqb _ _); cbn [st_rest st_bot st_caps] in G |- *; rewrite G; discriminate. }
  split; [|split; [exact E|]].
  - intros a c r -> S. specialize (M a (String c r) eq_refl). assert (NE : String c r <> "") by discriminate. specialize (M NE). revert M. unfold at_rest. cbn [st_rest st_bot st_caps].
    destruct (Nat.eqb _ _); cbn [st_rest st_bot st_caps]; apply tail_ends; right; exists c, (r +s+ t); auto.
  - rewrite <- (consumed_app v t) at 1. unfold at_rest in G. cbn [st_rest st_bot st_caps] in G. destruct (Nat.eqb _ _); cbn [st_rest st_bot st_caps] in G; eapply tail_caps; rewrite G; now left.
Qed.
Lemma rest_some b cs v t : has_char LF v = false -> ends t -> ms re_req_rest (mkst b (v +s+ t) cs) <> [].
Proof.
  intros V E N. destruct (ms re_req_tail (mkst (starts v && b) t ((1, v) :: cs))) as [|x l] eqn:T; [exact (proj2 (tail_ends _ _ _) E T)|].
  assert (I : In x (ms re_req_rest (mkst b (v +s+ t) cs))); [|rewrite N in I; destruct I]. unfold re_req_rest. rewrite seqs2, seqs1, in_sq. exists (mkst (starts v && b) t ((1, v) :: cs)). split; [|rewrite T; now left].
  apply in_cap. exists (mkst (starts v && b) t cs). split; [|cbn; now rewrite consumed_app]. unfold Dot. rewrite ms_star_cls_l. cbn [st_rest]. apply in_map_iff. exists t. split.
  - unfold at_rest. cbn [st_rest st_bot st_caps]. rewrite slen_app. destruct v as [|c v]; [cbn; rewrite Nat.eqb_refl; reflexivity|]. replace (Nat.eqb _ _) with false by (symmetry; apply Nat.eqb_neq; cbn; lia). reflexivity.
  - apply -> in_rev. apply runs_iff. exists v. split; [|reflexivity]. now apply dot_iff.
Qed.
Definition bracket (br rest : string) : Prop := (exists c, opening c /\ br = String c "") \/ br = "" /\ forall c r, rest = String c r -> ~ opening c.
Lemma req_first b s x l : ms re_requirement (mkst b s []) = x :: l ->
  exists br v t, s = br +s+ v +s+ t /\ bracket br (v +s+ t) /\ has_char LF v = false /\ free v /\ ends t /\ cap_of 1 (st_caps x) = v.
Proof.
  unfold re_requirement. rewrite seqs2. change (ms (Sq (Opt ?a) ?r) ?s) with (flat_map (ms r) (ms a s ++ [s])). change (Seqs [Cap 1 (Star false Dot); _]) with re_req_rest. destruct s as [|c s].
  - intros H. change (ms (Cls is_open) _ ++ _)%list with [mkst b "" []] in H. cbn [flat_map] in H. rewrite app_nil_r in H. apply rest_first in H as (v & t & E & V & F & N & C). exists "", v, t. rewrite C. repeat split; auto. right. split; [reflexivity|]. rewrite <- E. discriminate.
  - change (ms (Cls is_open) (mkst b (String c s) [])) with (if is_open c then [mkst false s []] else []). destruct (is_open c) eqn:O.
    + cbn [app flat_map]. rewrite app_nil_r. destruct (ms re_req_rest (mkst false s [])) as [|y l1] eqn:M.
      * intros H. exfalso. cbn [app] in H. apply rest_first in H as (v & t & E & V & F & N & C). destruct v as [|d v].
        -- cbn in E. subst t. destruct N as [N|(d & r & N & S)]; [discriminate|]. injection N as <- <-. apply open_iff in O. destruct O as [->| ->]; destruct S as [S|[S|[S|[]]]]; discriminate.
        -- injection E as <- ->. revert M. apply rest_some; [|exact N]. cbn in V. now apply orb_false_iff in V.
      * intros H. cbn [app] in H. injection H as -> <-. apply rest_first in M as (v & t & -> & V & F & N & C). exists (String c ""), v, t. rewrite C. repeat split; auto. left. exists c. split; [now apply open_iff|reflexivity].
    + cbn [app flat_map]. rewrite app_nil_r. intros H. apply rest_first in H as (v & t & E & V & F & N & C). exists "", v, t. rewrite C. repeat split; auto. right. split; [reflexivity|]. intros d r E'. rewrite E' in E. injection E as <- _. rewrite open_iff. congruence.
Qed.
Lemma req_some b br v t : bracket br (v +s+ t) -> has_char LF v = false -> ends t -> ms re_requirement (mkst b (br +s+ v +s+ t) []) <> [].
Proof.
  intros B V E. unfold re_requirement. rewrite seqs2. change (ms (Sq (Opt ?a) ?r) ?s) with (flat_map (ms r) (ms a s ++ [s])). change (Seqs [Cap 1 (Star false Dot); _]) with re_req_rest. rewrite flat_map_app. intros N. apply app_eq_nil in N as [N1 N2]. destruct B as [(c & O & ->)|[-> O]].
  - cbn [append] in N1. change (ms (Cls is_open) (mkst b (String c (v +s+ t)) [])) with (if is_open c then [mkst false (v +s+ t) []] else []) in N1. apply open_iff in O. rewrite O in N1. cbn in N1. rewrite app_nil_r in N1. revert N1. now apply rest_some.
  - cbn in N2. rewrite app_nil_r in N2. revert N2. now apply rest_some.
Qed.
Lemma bound_here br v t : bracket br (v +s+ t) -> has_char LF v = false -> free v -> ends t -> lower_bound (br +s+ v +s+ t) v.
Proof. intros B V F E. exists "", br, t. repeat split; auto. intros a c b H. destruct a; discriminate. Qed.
Lemma req_find s : forall b, exists m, find_at b re_requirement s = Some m /\ lower_bound s (group m 1).
Proof.
  assert (H : forall b s x l, ms re_requirement (mkst b s []) = x :: l -> exists m, find_at b re_requirement s = Some m /\ lower_bound s (group m 1)).
  { intros b s' x l M. pose proof (find_at_here _ _ _ _ _ M) as F. eexists. split; [exact F|]. apply req_first in M as (br & v & t & -> & B & V & FR & E & C). unfold group. cbn [m_caps]. rewrite C. now apply bound_here. }
  induction s as [|c s IH]; intros b.
  - destruct (ms re_requirement (mkst b "" [])) as [|x l] eqn:M; [|eapply H; eauto]. exfalso. refine (req_some b "" "" "" _ eq_refl _ M); [right; split; [reflexivity|discriminate]|now left].
  - destruct (ms re_requirement (mkst b (String c s) [])) as [|x l] eqn:M; [|eapply H; eauto].
    rewrite (find_at_skip _ _ _ _ M). destruct (IH false) as (m & -> & pre & br & t & E & P & FP & B & V & F & N). eexists. split; [reflexivity|]. unfold group in *. cbn [m_caps]. set (v := cap_of 1 (m_caps m)) in *.
    exists (String c pre), br, t. assert (NS : ~ stop c). { intros S. refine (req_some b "" "" (String c s) _ eq_refl _ M); [right; split; [reflexivity|]|right; eauto]. intros d r E2 O. injection E2 as <- _. destruct O as [->| ->]; destruct S as [S|[S|[S|[]]]]; discriminate. }
    split; [cbn; now rewrite <- E|]. split; [|split; [|repeat split; auto]].
    + right. destruct P as [->|(p & ->)]; [|exists (String c p); reflexivity]. destruct (Ascii.eqb_spec c LF) as [->|NL]; [exists ""; reflexivity|exfalso]. cbn in E. subst s.
      assert (W : exists br' v', String c (br +s+ v +s+ t) = br' +s+ v' +s+ t /\ bracket br' (v' +s+ t) /\ has_char LF v' = false).
      { assert (LB : has_char LF (br +s+ v) = false). { rewrite has_char_app, V, orb_false_r. destruct B as [(d & [->| ->] & ->)|[-> _]]; reflexivity. }
        destruct (is_open c) eqn:O.
        - exists (String c ""), (br +s+ v). split; [cbn; now rewrite sapp_assoc|]. split; [left; exists c; split; [now apply open_iff|reflexivity]|exact LB].
        - exists "", (String c (br +s+ v)). split; [cbn; now rewrite sapp_assoc|]. split; [right; split; [reflexivity|]; intros d r E2; injection E2 as <- _; rewrite open_iff; congruence|]. cbn [has_char]. rewrite LB, orb_false_r. apply Ascii.eqb_neq. congruence. }
      destruct W as (br' & v' & W & B' & V'). rewrite W in M. exact (req_some b br' v' t B' V' N M).
    + intros [|d a] e r E2; cbn in E2; injection E2 as <- E2; [exact NS|]. exact (FP a e r E2).
Qed.
Lemma bracket_cases pre br v t pre' br' v' t' : pre = pre' -> pre +s+ br +s+ v +s+ t = pre' +s+ br' +s+ v' +s+ t' -> bracket br (v +s+ t) -> bracket br' (v' +s+ t') -> free v -> ends t -> free v' -> ends t' -> v = v'.
Proof.
  intros <- E B B' F N F' N'. apply sapp_inj_l in E.
  assert (X : v +s+ t = v' +s+ t').
  { destruct B as [(c & O & ->)|[-> O]], B' as [(c' & O' & ->)|[-> O']]; cbn in E.
    - now injection E.
    - destruct (O' c (v +s+ t)); [now rewrite <- E|exact O].
    - destruct (O c' (v' +s+ t')); [now rewrite E|exact O'].
    - exact E. }
  assert (S : forall y, ends y -> forall c r, y = String c r -> negb (is_stop c) = false) by (intros y [->|(d & q & -> & S)] c r E2; [discriminate|injection E2 as <- <-; apply stop_iff in S; now rewrite S]).
  apply free_iff in F, F'. pose proof (span_unique _ _ _ F (S _ N)) as P. pose proof (span_unique _ _ _ F' (S _ N')) as Q. rewrite X, Q in P. now injection P.
Qed.
Lemma pre_same pre br v t pre' br' v' t' : String.length pre <= String.length pre' -> pre +s+ br +s+ v +s+ t = pre' +s+ br' +s+ v' +s+ t' -> bracket br (v +s+ t) -> has_char LF v = false -> ends t ->
  (pre' = "" \/ exists p, pre' = p +s+ String LF "") -> free pre' -> pre = pre'.
Proof.
  intros L E B V N P F. symmetry in E. apply sapp_prefix in E as (z & -> & E); [|exact L]. destruct z as [|c z]; [now rewrite sapp_nil_r|exfalso].
  assert (Z : exists y, String c z = y +s+ String LF ""). { destruct P as [P|(p & P)]; [destruct pre; discriminate|]. assert (LP : String.length pre <= String.length p) by (apply (f_equal String.length) in P; rewrite !slen_app in P; cbn in P; lia).
    pose proof P as P2. symmetry in P2. apply sapp_prefix in P2 as (y & Ey & Ez); [|lia]. exists y. exact Ez. }
  assert (LB : has_char LF (br +s+ v) = false). { rewrite has_char_app, V, orb_false_r. destruct B as [(d & [->| ->] & ->)|[-> _]]; reflexivity. }
  rewrite <- (sapp_assoc br) in E. assert (LZ : has_char LF (String c z) = true). { destruct Z as (y & ->). rewrite has_char_app. cbn. apply orb_true_r. }
  destruct (Nat.le_gt_cases (String.length (String c z)) (String.length (br +s+ v))) as [LE|GT].
  - pose proof E as E2. apply sapp_prefix in E2 as (q & Eq & _); [|exact LE]. rewrite Eq, has_char_app, LZ in LB. discriminate.
  - symmetry in E. apply sapp_prefix in E as (q & Eq & Et); [|lia]. rewrite Eq in *. destruct q as [|d q]; [rewrite sapp_nil_r in LZ; congruence|]. destruct N as [->|(e & r & -> & S)]; [discriminate|]. injection Et as -> _.
    refine (F (pre +s+ br +s+ v) d q _ S). now rewrite !sapp_assoc.
Qed.
Lemma bound_fun s v w : lower_bound s v -> lower_bound s w -> v = w.
Proof.
  intros (pre & br & t & -> & P & FP & B & V & F & N) (pre' & br' & t' & E & P' & FP' & B' & V' & F' & N'). assert (X : pre = pre').
  { destruct (Nat.le_ge_cases (String.length pre) (String.length pre')) as [L|L]; [exact (pre_same _ _ _ _ _ _ _ _ L E B V N P' FP')|symmetry; exact (pre_same _ _ _ _ _ _ _ _ L (eq_sym E) B' V' N' P FP)]. }
  exact (bracket_cases _ _ _ _ _ _ _ _ X E B B' F N F' N').
Qed.
Lemma bound_total s : exists v, lower_bound s v.
Proof. destruct (req_find s true) as (m & _ & L). eauto. Qed.
Lemma resolved_bound s v w : lower_bound s v -> or_zero v w -> parse_resolved_version s = w.
Proof.
  intros L Z. unfold parse_resolved_version, find. destruct (req_find s true) as (m & -> & L'). rewrite (bound_fun _ _ _ L' L). destruct Z as [[-> ->]|[N ->]]; [reflexivity|]. apply seqb_neq in N. now rewrite N.
Qed.
Lemma or_zero_total v : exists w, or_zero v w.
Proof. destruct (string_dec v "") as [->|N]; [exists "0"; now left|exists v; now right]. Qed.

(** ** interpolation *)
Lemma greedy_first (p : ascii -> bool) {B} (g : string -> list B) s : forall x l, flat_map g (runs p s) = x :: l ->
  exists w r l', s = w +s+ r /\ str_forall p w = true /\ g r = x :: l' /\ forall w' r', s = w' +s+ r' -> str_forall p w' = true -> g r' <> [] -> String.length w' <= String.length w.
Proof.
  induction s as [|c s IH]; intros x l H; cbn [runs] in H.
  - cbn in H. rewrite app_nil_r in H. exists "", "", l. repeat split; auto. intros [|? ?] r' E; cbn in *; [lia|discriminate].
  - destruct (p c) eqn:P.
    + rewrite flat_map_app in H. destruct (flat_map g (runs p s)) as [|y l1] eqn:G.
      * cbn in H. rewrite app_nil_r in H. exists "", (String c s), l. repeat split; auto. intros [|d w'] r' E W N; [cbn; lia|]. exfalso. injection E as <- ->. cbn in W. rewrite P in W. cbn in W.
        destruct (g r') as [|z l2] eqn:GR; [now destruct N|]. assert (I : In z (flat_map g (runs p (w' +s+ r')))) by (apply in_flat_map; exists r'; split; [apply runs_iff; eauto|rewrite GR; now left]). rewrite G in I. destruct I.
      * cbn in H. injection H as -> <-. destruct (IH x l1 eq_refl) as (w & r & l' & -> & W & GR & M). exists (String c w), r, l'. cbn. rewrite P, W. repeat split; auto.
        intros [|d w'] r' E W' N; cbn; [lia|]. injection E as <- E. cbn in W'. rewrite P in W'. specialize (M w' r' E W' N). lia.
    + cbn in H. rewrite app_nil_r in H. exists "", (String c s), l. repeat split; auto. intros [|d w'] r' E W N; [cbn; lia|]. injection E as <- ->. cbn in W. rewrite P in W. discriminate.
Qed.
Lemma in_interp b s x : In x (ms re_interpolation (mkst b s [])) <-> exists p r, s = "${" +s+ p +s+ "}" +s+ r /\ p <> "" /\ has_char LF p = false /\ x = mkst false r [(1, p)].
Proof.
  unfold re_interpolation. rewrite seqs2, in_sq. split.
  - intros (y & Y & H). apply in_lit in Y as (t & -> & ->). step H y. apply in_cap_plus in Y as (p & t1 & NE & P & -> & ->). rewrite seqs1 in H. apply in_chr in H as (r & -> & ->). exists p, r. repeat split; auto. now apply dot_iff.
  - intros (p & r & -> & NE & P & ->). exists (mkst false (p +s+ "}" +s+ r) []). split; [apply in_lit; eexists; split; reflexivity|]. go (mkst false ("}" +s+ r) [(1, p)]); [apply in_cap_plus; exists p, ("}" +s+ r); repeat split; auto; now apply dot_iff|]. rewrite seqs1. apply in_chr. eexists. split; reflexivity.
Qed.
(** the first of the ways to match is the longest *)
Lemma interp_first b s x l : ms re_interpolation (mkst b s []) = x :: l -> forall y, In y (x :: l) -> String.length (cap_of 1 (st_caps y)) <= String.length (cap_of 1 (st_caps x)).
Proof.
  intros M y Y. assert (X : In x (ms re_interpolation (mkst b s []))) by (rewrite M; now left). apply in_interp in X as (p & r & E & NP & LP & ->). rewrite <- M in Y. apply in_interp in Y as (q & t & E2 & NQ & LQ & ->).
  cbn [st_caps cap_of Nat.eqb]. rewrite E in M, E2. clear E. rename E2 into E. apply (sapp_inj_l "${") in E. destruct p as [|c p]; [congruence|]. destruct q as [|d q]; [congruence|]. cbn in E. injection E as <- E.
  assert (PC : is_dot c = true) by (apply dot_iff in LP; cbn [str_forall] in LP; now apply andb_true_iff in LP).
  set (G := fun z => ms (Chr "}") (mkst false z [(1, consumed (String c (p +s+ String "}" r)) z)])).
  assert (F : flat_map G (runs is_dot (p +s+ String "}" r)) = mkst false r [(1, String c p)] :: l).
  { rewrite <- M. unfold re_interpolation. rewrite seqs2. change (ms (Sq ?a ?b) ?s) with (flat_map (ms b) (ms a s)). change (ms (Lit "${") (mkst b ("${" +s+ String c p +s+ "}" +s+ r) [])) with [mkst false (String c p +s+ "}" +s+ r) []]. cbn [flat_map append]. rewrite app_nil_r, seqs2, seqs1.
    change (ms (Sq ?a ?b) ?s) with (flat_map (ms b) (ms a s)). change (ms (Cap 1 (Plus true Dot)) ?s) with
      (map (fun s' => mkst (st_bot s') (st_rest s') ((1, consumed (st_rest s) (st_rest s')) :: st_caps s')) (ms (Plus true Dot) s)). unfold Dot. rewrite ms_plus_cls_g, PC. rewrite map_map, !flat_map_concat_map, map_map. reflexivity. }
  apply greedy_first in F as (w & z & l' & E3 & W & GZ & MAX).
  assert (Z : z = String "}" r). { assert (I : In (mkst false r [(1, String c p)]) (G z)) by (rewrite GZ; now left). unfold G in I. apply in_chr in I as (t' & -> & I). injection I as <- _. reflexivity. }
  subst z. assert (w = p). { apply (f_equal String.length) in E3 as L3. rewrite !slen_app in L3. apply sapp_inj_len in E3 as [E3 _]; [congruence|lia]. } subst w.
  assert (LE : String.length q <= String.length p); [|cbn; lia]. apply (MAX q (String "}" t) E).
  - cbn in LQ. apply orb_false_iff in LQ as [_ LQ]. now apply dot_iff.
  - unfold G. intros N. assert (I : In (mkst false t [(1, consumed (String c (p +s+ String "}" r)) (String "}" t))]) []) by (rewrite <- N; apply in_chr; eexists; split; reflexivity). destruct I.
Qed.
Lemma interp_some s m : find re_interpolation s = Some m -> interpolates s (group m 1).
Proof.
  intros F. apply find_at_some in F as (x & l & M & R & C & E & N). set (b := match m_before m with "" => true | _ => false end) in *. pose proof (interp_first _ _ _ _ M) as MAX.
  assert (X : In x (ms re_interpolation (mkst b (m_text m +s+ m_after m) []))) by (rewrite M; now left). apply in_interp in X as (p & r & E2 & NP & LP & ->). cbn [st_caps st_rest] in *. unfold group. rewrite <- C in *. cbn [cap_of Nat.eqb] in *.
  rewrite E2 in E. exists (m_before m), r. split; [split; [exact E|auto]|]. split.
  - intros a' p' b' (E' & NP' & LP'). destruct (Nat.le_gt_cases (String.length (m_before m)) (String.length a')) as [|LT]; [assumption|exfalso]. rewrite E in E'. pose proof E' as E3. apply sapp_prefix in E3 as (z & Ez & Et); [|lia].
    assert (NZ : z <> "") by (intros ->; rewrite sapp_nil_r in Ez; rewrite Ez in LT; lia). specialize (N a' z Ez NZ). rewrite E2 in N. symmetry in Et. 
    assert (I : forall bb, In (mkst false b' [(1, p')]) (ms re_interpolation (mkst bb (z +s+ "${" +s+ p +s+ "}" +s+ r) []))) by (intros bb; apply in_interp; exists p', b'; split; [congruence|auto]).
    specialize (I (match a' with "" => true | _ => false end)). rewrite N in I. destruct I.
  - intros p' b' (E' & NP' & LP'). rewrite E in E'. apply sapp_inj_l in E'. apply (MAX (mkst false b' [(1, p')])). rewrite <- M. apply in_interp. exists p', b'. rewrite E2. auto.
Qed.
Lemma interp_none s : find re_interpolation s = None -> interpolates_none s.
Proof. intros F a p b (E & NP & LP). rewrite find_none in F. refine (F a _ (mkst false b [(1, p)]) E _). apply in_interp. exists p, b. auto. Qed.
Lemma interp_fun s p q : interpolates s p -> interpolates s q -> p = q.
Proof.
  intros (a & b & B & M & X) (a' & b' & B' & M' & X'). pose proof (M _ _ _ B'). pose proof (M' _ _ _ B). assert (a = a'). { destruct B as (E & _), B' as (E' & _). rewrite E in E'. apply sapp_inj_len in E' as [-> _]; [reflexivity|lia]. }
  subst a'. pose proof (X _ _ B'). pose proof (X' _ _ B). destruct B as (E & _), B' as (E' & _). rewrite E in E'. apply sapp_inj_l in E'. apply (sapp_inj_l "${") in E'. apply sapp_inj_len in E' as [-> _]; [reflexivity|lia].
Qed.
Lemma interp_not s p : interpolates_none s -> ~ interpolates s p.
Proof. intros N (a & b & B & _). exact (N _ _ _ B). Qed.

(** ** versions *)
Definition pom_props (cs : list xnode) : list (string * string) := fold_left (fun _ kids => dec_properties kids) (named "properties" cs) [].
Lemma resolve_iff cs f d : mv_properties f = pom_props cs -> version_of cs (to_dep d) (fst (resolve_version d f)) (snd (resolve_version d f)).
Proof.
  intros P. unfold resolve_version, resolve_version_value. destruct (find re_interpolation (md_version d)) as [m|] eqn:F.
  - apply interp_some in F. rewrite P. unfold pom_props. pose proof (property_get cs (group m 1)) as G. destruct (map_get _ _) as [v|]; cbn [fst snd].
    + destruct (bound_total v) as (b & B). destruct (or_zero_total b) as (w & W). rewrite (resolved_bound _ _ _ B W). eapply vo_property; eauto.
    + change (parse_resolved_version "0") with "0". replace (maven_complaint d (group m 1)) with ("Failed to resolve version of " +s+ dep_key (to_dep d) +s+ ": property """ +s+ group m 1 +s+ """ could not be found
"); [now apply vo_missing|]. unfold maven_complaint, dep_key, to_dep. cbn [dep_group dep_artifact]. now rewrite !sapp_assoc.
  - apply interp_none in F. cbn [fst snd]. destruct (bound_total (md_version d)) as (b & B). destruct (or_zero_total b) as (w & W). rewrite (resolved_bound _ _ _ B W). eapply vo_literal; eauto.
Qed.
Lemma or_zero_fun b v w : or_zero b v -> or_zero b w -> v = w.
Proof. intros [[A ->]|[A ->]] [[B ->]|[B ->]]; congruence. Qed.
Lemma version_fun cs d v s w t : version_of cs d v s -> version_of cs d w t -> v = w /\ s = t.
Proof.
  intros [b v' N B Z|p val b v' I P B Z|p I N] [b2 v2 N2 B2 Z2|p2 val2 b2 v2 I2 P2 B2 Z2|p2 I2 N2];
    try (exfalso; eapply interp_not; eassumption); try (pose proof (interp_fun _ _ _ I I2) as <-); try (exfalso; eapply N; eassumption); try (exfalso; eapply N2; eassumption); auto.
  - rewrite (bound_fun _ _ _ B B2) in Z. split; [eapply or_zero_fun; eauto|reflexivity].
  - rewrite (property_fun _ _ _ _ P P2) in B. rewrite (bound_fun _ _ _ B B2) in Z. split; [eapply or_zero_fun; eauto|reflexivity].
Qed.

(** ** the loops *)
Definition made (f : MavenFile) (d : MavenDep) : string * Pkg :=
  (dep_key (to_dep d), plain_pkg (dep_key (to_dep d)) (fst (resolve_version d f)) "Maven").
Lemma loop_eq f ds : forall m said, maven_loop f ds (m, said) =
  (fold_left (fun m e => map_set (fst e) (snd e) m) (map (made f) ds) m, (said ++ flat_map (fun d => snd (resolve_version d f)) ds)%list).
Proof.
  induction ds as [|d ds IH]; intros m said; cbn [maven_loop fold_left map flat_map]; [unfold maven_loop; cbn; now rewrite app_nil_r|].
  unfold maven_loop in *. cbn [fold_left]. destruct (resolve_version d f) as [v s] eqn:R. rewrite IH, <- app_assoc. cbn [snd]. replace (made f d) with (dep_key (to_dep d), plain_pkg (dep_key (to_dep d)) v "Maven") by (unfold made; now rewrite R). reflexivity.
Qed.
(** what a key has in the end *)
Lemma fold_get (es : list (string * Pkg)) k : map_get k (fold_left (fun m e => map_set (fst e) (snd e) m) es []) = option_map snd (List.find (fun e => seqb (fst e) k) (rev es)).
Proof.
  induction es as [|e es IH] using rev_ind; [reflexivity|]. rewrite fold_left_app, rev_app_distr. cbn [fold_left rev app List.find]. rewrite map_get_set. destruct (seqb (fst e) k); [reflexivity|exact IH].
Qed.
Lemma fold_nodup (es : list (string * Pkg)) : forall m, NoDup (map fst m) -> NoDup (map fst (fold_left (fun m e => map_set (fst e) (snd e) m) es m)).
Proof. induction es as [|e es IH]; intros m N; [exact N|]. cbn. apply IH. now apply map_set_nodup. Qed.
Lemma wins_snoc ds d e : wins (ds ++ [e]) d <-> e = d \/ dep_key e <> dep_key d /\ wins ds d.
Proof.
  split.
  - intros (a & b & E & N). destruct b as [|b0 b1] eqn:B.
    + apply app_inj_tail in E as [_ ->]. now left.
    + rewrite <- B in *. assert (Z : b <> []) by congruence. apply exists_last in Z as (b2 & z & Z). rewrite Z in E. rewrite app_comm_cons, app_assoc in E. apply app_inj_tail in E as [-> ->].
      right. split; [apply N; rewrite Z; apply in_or_app; right; now left|]. exists a, b2. split; [reflexivity|]. intros x X. apply N. rewrite Z. apply in_or_app. now left.
  - intros [->|[X (a & b & -> & N)]]; [exists ds, []; split; [reflexivity|intros k []]|]. exists a, (b ++ [e])%list. split; [now rewrite <- app_assoc|]. intros k K. apply in_app_or in K as [K|[<-|[]]]; auto.
Qed.
Lemma fold_wins f (ds : list MavenDep) k p : map_get k (fold_left (fun m e => map_set (fst e) (snd e) m) (map (made f) ds) []) = Some p
  <-> exists d, wins (map to_dep ds) (to_dep d) /\ In d ds /\ made f d = (k, p).
Proof.
  induction ds as [|e ds IH] using rev_ind.
  { split; [discriminate|]. intros (d & _ & [] & _). }
  rewrite map_app, fold_left_app. cbn [map fold_left]. rewrite map_get_set. destruct (seqb_spec (fst (made f e)) k) as [K|K].
  - split.
    + intros E. injection E as <-. exists e. rewrite map_app. split; [apply wins_snoc; now left|]. split; [apply in_or_app; right; now left|]. rewrite <- K. apply surjective_pairing.
    + intros (d & W & I & M). rewrite map_app in W. apply wins_snoc in W as [W|[W _]].
      * f_equal. assert (X : made f e = made f d); [|rewrite X, M; reflexivity]. unfold made. rewrite W. destruct e, d. unfold to_dep in W. cbn in W. injection W as -> -> ->. reflexivity.
      * exfalso. apply W. unfold made in *. cbn [fst] in K. injection M as M _. congruence.
  - rewrite IH. split.
    + intros (d & W & I & M). exists d. rewrite map_app. split; [|split; [apply in_or_app; now left|exact M]]. apply wins_snoc. right. split; [|exact W]. intros E. apply K. unfold made in *. cbn [fst]. injection M as M _. rewrite <- M. congruence.
    + intros (d & W & I & M). rewrite map_app in W. apply wins_snoc in W as [W|[W W']].
      * exfalso. apply K. unfold made in *. cbn [fst]. injection M as M _. rewrite <- M. congruence.
      * exists d. split; [exact W'|]. split; [|exact M]. apply in_app_or in I as [I|[<-|[]]]; [exact I|congruence].
Qed.
Lemma maven_lock it files xml path content cs ds : IterOk it -> files path = Text content false -> xml content = Some (XElem "project" cs) -> declared cs ds ->
  exists ps said, parse_maven_lock it files xml path = (Ok (inr ps), said)
    /\ NoDup (map p_name ps) /\ (forall p, In p ps <-> exists d s, wins ds d /\ maven_pkg cs d p s)
    /\ exists ss, Forall2 (fun d s => exists p, maven_pkg cs d p s) ds ss /\ said = concat ss.
Proof.
  intros IT F X (managed & direct & DM & DD & ->). apply declared_at_iff in DM, DD. unfold parse_maven_lock, read_file. rewrite F, X. cbn [dec_pom]. change (seqb "project" "project") with true. cbv iota. fold (pom_props cs).
  set (mds := map dec_dependency (xml_path ["dependencyManagement"; "dependencies"; "dependency"] cs)) in *. set (dds := map dec_dependency (xml_path ["dependencies"; "dependency"] cs)) in *.
  set (f := mkMavenFile (pom_props cs) dds mds). cbn [mv_dependencies mv_managed f]. rewrite !loop_eq, <- fold_left_app, <- map_app. fold f. cbn [app].
  set (m := fold_left _ (map (made f) (mds ++ dds)) []). assert (P : mv_properties f = pom_props cs) by reflexivity. rewrite DM, DD, <- map_app.
  eexists. eexists. split; [reflexivity|]. pose proof (fold_nodup (map (made f) (mds ++ dds)) [] (NoDup_nil _)) as ND. fold m in ND.
  assert (PM : Permutation m (it _ m)) by apply IT. assert (G : forall k p, In (k, p) m <-> exists d, wins (map to_dep (mds ++ dds)) (to_dep d) /\ In d (mds ++ dds) /\ made f d = (k, p)).
  { intros k p. rewrite <- fold_wins. fold m. symmetry. now apply map_get_in. }
  split; [|split].
  - unfold map_to_slice. rewrite map_map. eapply Permutation_NoDup; [apply Permutation_map; exact PM|]. replace (map (fun x => p_name (snd x)) m) with (map fst m); [exact ND|]. apply map_ext_in. intros [k p] I. apply G in I as (d & _ & _ & M). injection M as <- <-. reflexivity.
  - intros p. unfold map_to_slice. rewrite in_map_iff. split.
    + intros ([k q] & <- & I). eapply Permutation_in in I; [|symmetry; exact PM]. apply G in I as (d & W & _ & M). injection M as <- <-. exists (to_dep d), (snd (resolve_version d f)). split; [exact W|]. eexists. split; [apply (resolve_iff cs f d P)|reflexivity].
    + intros (d & s & W & v & V & ->). assert (I : In d (map to_dep (mds ++ dds))) by (destruct W as (a & b & -> & _); apply in_or_app; right; now left). apply in_map_iff in I as (d' & <- & I).
      destruct (version_fun _ _ _ _ _ _ V (resolve_iff cs f d' P)) as [-> _]. exists (dep_key (to_dep d'), plain_pkg (dep_key (to_dep d')) (fst (resolve_version d' f)) "Maven"). split; [reflexivity|]. eapply Permutation_in; [exact PM|]. apply G. exists d'. auto.
  - exists (map (fun d => snd (resolve_version d f)) (mds ++ dds)%list). split.
    + clear G PM ND. clearbody m. induction (mds ++ dds)%list as [|d l IH]; cbn; [constructor|]. constructor; [|exact IH]. eexists. eexists. split; [apply (resolve_iff cs f d P)|reflexivity].
    + now rewrite <- flat_map_concat_map, flat_map_app.
Qed.
Lemma maven_unread it files xml path : (forall content cs, files path = Text content false -> xml content <> Some (XElem "project" cs)) ->
  parse_maven_lock it files xml path = (fails_with (match files path with Text _ false => FParse path | _ => FRead path end), []).
Proof.
  intros N. unfold parse_maven_lock, read_file. destruct (files path) as [|content []]; try reflexivity. destruct (xml content) as [[s|name cs]|] eqn:X; try reflexivity. cbn [dec_pom]. destruct (seqb_spec name "project") as [->|]; [destruct (N content cs eq_refl X)|reflexivity].
Qed.
Lemma declared_total cs : exists ds, declared cs ds.
Proof. eexists. eexists. eexists. split; [now apply declared_at_iff|]. split; [now apply declared_at_iff|reflexivity]. Qed.
Lemma declared_fun cs ds ds' : declared cs ds -> declared cs ds' -> ds = ds'.
Proof. intros (a & b & A & B & ->) (a' & b' & A' & B' & ->). apply declared_at_iff in A, B, A', B'. congruence. Qed.
Lemma maven_pkg_fun cs d p s q t : maven_pkg cs d p s -> maven_pkg cs d q t -> p = q /\ s = t.
Proof. intros (v & V & ->) (w & W & ->). destruct (version_fun _ _ _ _ _ _ V W) as [-> ->]. auto. Qed.
Lemma maven_pkg_total cs d : exists p s, maven_pkg cs d p s.
Proof. pose proof (resolve_iff cs (mkMavenFile (pom_props cs) [] []) (mkMavenDep (dep_group d) (dep_artifact d) (dep_version d)) eq_refl) as H. destruct d. eexists. eexists. eexists. split; [exact H|reflexivity]. Qed.
