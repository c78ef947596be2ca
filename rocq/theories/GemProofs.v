From Verif Require Import GoStr GoStrFacts Types Regex RegexFacts RegexIn Scan Ecosystems LockIO CommitProofs LockSpec GemLock GemSpec.
Local Open Scope string_scope.
Local Open Scope nat_scope.

Notation LF := "010"%char.
Notation CR := "013"%char.
(** ** lines *)
Definition unit_break (u : string) : Prop := u = String LF "" \/ u = String CR (String LF "").
Lemma in_unit b v cs y : In y (ms (Sq (Opt (Chr cr)) (Chr nl)) (mkst b v cs)) <-> exists u t, unit_break u /\ v = u +s+ t /\ y = mkst false t cs.
Proof.
  rewrite in_sq. split.
  - intros (z & Z & Y). apply in_opt in Z as [Z|Z].
    + apply in_chr in Z as (t & -> & ->). apply in_chr in Y as (t' & -> & ->). exists (String CR (String LF "")), t'. split; [now right|]. auto.
    + subst z. apply in_chr in Y as (t' & -> & ->). exists (String LF ""), t'. split; [now left|]. auto.
  - intros (u & t & [->| ->] & -> & ->).
    + exists (mkst b (String LF t) cs). split; [apply in_opt; now right|]. apply in_chr. eauto.
    + exists (mkst false (String LF t) cs). split; [apply in_opt; left; apply in_chr; eexists; split; reflexivity|]. apply in_chr. eexists; split; reflexivity.
Qed.
Inductive units : string -> Prop := un_nil : units "" | un_cons : forall u b, unit_break u -> units b -> units (u +s+ b).
Lemma star_units n : forall b v cs x, In x (star true (ms (Sq (Opt (Chr cr)) (Chr nl))) n (mkst b v cs)) -> exists br, units br /\ v = br +s+ st_rest x.
Proof.
  induction n as [|n IH]; intros b v cs x H; cbn [star] in H.
  - destruct H as [<-|[]]. exists "". split; [constructor|reflexivity].
  - apply in_app_or in H as [H|[<-|[]]]; [|exists ""; split; [constructor|reflexivity]]. apply in_flat_map in H as (y & Y & H). apply filter_In in Y as [Y _].
    apply in_unit in Y as (u & t & U & -> & ->). apply IH in H as (br & B & ->). exists (u +s+ br). split; [now constructor|]. now rewrite sapp_assoc.
Qed.
Lemma breaks_in b v cs x : In x (ms re_breaks (mkst b v cs)) -> exists u br, unit_break u /\ units br /\ v = u +s+ br +s+ st_rest x.
Proof.
  unfold re_breaks, Plus. rewrite in_sq. intros (y & Y & H). apply in_unit in Y as (u & t & U & -> & ->). cbn [ms] in H. apply star_units in H as (br & B & ->). exists u, br. auto.
Qed.
Lemma breaks_ne b u t cs : unit_break u -> ms re_breaks (mkst b (u +s+ t) cs) <> [].
Proof.
  intros U E. assert (I : In (mkst false t cs) (ms re_breaks (mkst b (u +s+ t) cs))).
  - unfold re_breaks, Plus. apply in_sq. exists (mkst false t cs). split; [apply in_unit; eauto|]. cbn [ms]. destruct (String.length _); cbn [star]; [now left|]. apply in_or_app. right. now left.
  - rewrite E in I. destruct I.
Qed.
Lemma units_lines br : units br -> forall rest ls, raw_lines rest ls -> exists k, raw_lines (br +s+ rest) (repeat "" k ++ ls).
Proof.
  induction 1 as [|u br U B IH]; intros rest ls R; [exists 0; exact R|]. destruct (IH _ _ R) as (k & K). exists (S k). destruct U as [->| ->]; cbn.
  - apply (rl_lf ""); [reflexivity| |exact K]. intros [|c y]; discriminate.
  - apply (rl_crlf ""); [reflexivity|exact K].
Qed.
Lemma find_breaks b s : match find_at b re_breaks s with
  | None => has_char LF s = false
  | Some m => exists u br, unit_break u /\ units br /\ s = m_before m +s+ u +s+ br +s+ m_after m /\ has_char LF (m_before m) = false
                /\ (u = String LF "" -> forall y, m_before m <> y +s+ String CR "")
  end.
Proof.
  destruct (find_at b re_breaks s) as [m|] eqn:F.
  - apply find_at_some in F as (x & l & M & R & _ & E & N).
    assert (I : In x (ms re_breaks (mkst (match m_before m with "" => b | _ => false end) (m_text m +s+ m_after m) []))) by (rewrite M; now left).
    apply breaks_in in I as (u & br & U & B & V). rewrite R in V. exists u, br. split; [exact U|]. split; [exact B|]. split; [now rewrite E, V|]. split.
    + destruct (has_char LF (m_before m)) eqn:H; [|reflexivity]. apply has_char_iff in H as (p & q & H). exfalso.
      specialize (N p (String LF q) H ltac:(discriminate)). eapply (breaks_ne _ (String LF "")); [|exact N]. now left.
    + intros -> y H. specialize (N y (String CR "") H ltac:(discriminate)). rewrite V in N. eapply (breaks_ne _ (String CR (String LF ""))); [|exact N]. now right.
  - destruct (has_char LF s) eqn:H; [|reflexivity]. apply has_char_iff in H as (p & q & ->). exfalso.
    pose proof (find_at_none _ _ _ F p (String LF q) eq_refl) as N. eapply (breaks_ne _ (String LF "")); [|exact N]. now left.
Qed.
Lemma crlf_split x y r : x +s+ String LF r = y +s+ String CR (String LF r) -> x = y +s+ String CR "".
Proof. intros E. apply (sapp_inj_r _ _ (String LF r)). rewrite sapp_assoc. exact E. Qed.
Lemma lf_unique x y r r' : has_char LF x = false -> has_char LF y = false -> x +s+ String LF r = y +s+ String LF r' -> x = y /\ r = r'.
Proof.
  intros X Y E. pose proof (cut_char_found LF x r X) as A. pose proof (cut_char_found LF y r' Y) as B. rewrite E in A. rewrite A in B. injection B as <- <-. auto.
Qed.
Lemma raw_fun s ls : raw_lines s ls -> forall ls', raw_lines s ls' -> ls = ls'.
Proof.
  assert (NL : forall x, has_char LF (x +s+ String CR "") = has_char LF x) by (intros x; rewrite has_char_app; cbn; apply orb_false_r).
  induction 1 as [x X|x rest ls X R IH|x rest ls X N R IH]; intros ls' H; inversion H as [y Y E1|y rest' ls2 Y R' E1|y rest' ls2 Y N' R' E1]; subst.
  - reflexivity.
  - rewrite has_char_app in X. cbn in X. now rewrite orb_true_r in X.
  - rewrite has_char_app in X. cbn in X. now rewrite orb_true_r in X.
  - rewrite has_char_app in Y. cbn in Y. now rewrite orb_true_r in Y.
  - replace (y +s+ String CR (String LF rest')) with ((y +s+ String CR "") +s+ String LF rest') in E1 by now rewrite sapp_assoc.
    replace (x +s+ String CR (String LF rest)) with ((x +s+ String CR "") +s+ String LF rest) in E1 by now rewrite sapp_assoc.
    apply lf_unique in E1 as [E1 ->]; rewrite ?NL; auto. apply sapp_inj_r in E1 as ->. f_equal. auto.
  - replace (x +s+ String CR (String LF rest)) with ((x +s+ String CR "") +s+ String LF rest) in E1 by now rewrite sapp_assoc.
    apply lf_unique in E1 as [E1 _]; rewrite ?NL; auto. destruct (N' _ E1).
  - rewrite has_char_app in Y. cbn in Y. now rewrite orb_true_r in Y.
  - replace (y +s+ String CR (String LF rest')) with ((y +s+ String CR "") +s+ String LF rest') in E1 by now rewrite sapp_assoc.
    apply lf_unique in E1 as [E1 _]; rewrite ?NL; auto. symmetry in E1. destruct (N _ E1).
  - apply lf_unique in E1 as [-> ->]; auto. f_equal. auto.
Qed.
Lemma raw_total : forall n s, String.length s < n -> exists ls, raw_lines s ls.
Proof.
  induction n as [|n IH]; intros s L; [lia|]. pose proof (find_breaks true s) as F. destruct (find_at true re_breaks s) as [m|]; [|exists [s]; now constructor].
  destruct F as (u & br & U & B & E & N & C). rewrite E, !slen_app in L. assert (LU : 0 < String.length u) by (destruct U as [->| ->]; cbn; lia).
  destruct (IH (br +s+ m_after m)) as (ls & R); [rewrite slen_app; lia|]. exists (m_before m :: ls). rewrite E. destruct U as [->| ->]; cbn [append].
  - apply rl_lf; auto.
  - apply rl_crlf; auto.
Qed.
(** ** spec lines *)
Lemma lazy_first (p : ascii -> bool) {B} (g : string -> list B) s x l : flat_map g (rev (runs p s)) = x :: l ->
  exists w r l', s = w +s+ r /\ str_forall p w = true /\ g r = x :: l' /\ forall w1 w2, w = w1 +s+ w2 -> w2 <> "" -> g (w2 +s+ r) = [].
Proof.
  revert x l. induction s as [|c s IH]; intros x l H; cbn [runs] in H.
  - cbn in H. rewrite app_nil_r in H. exists "", "", l. repeat split; auto. intros [|? ?] [|? ?]; cbn; congruence.
  - assert (K : g (String c s) = x :: l \/ (exists l', g (String c s) = x :: l') \/ g (String c s) = [] /\ p c = true /\ flat_map g (rev (runs p s)) = x :: l).
    { destruct (p c) eqn:P; [rewrite rev_app_distr in H; cbn in H|cbn in H; rewrite app_nil_r in H; auto].
      destruct (g (String c s)) as [|y l1] eqn:G; [auto|]. cbn in H. injection H as -> <-. eauto. }
    destruct K as [K|[(l' & K)|(K1 & K2 & K3)]].
    + exists "", (String c s), l. repeat split; auto. intros [|? ?] [|? ?]; cbn; congruence.
    + exists "", (String c s), l'. repeat split; auto. intros [|? ?] [|? ?]; cbn; congruence.
    + apply IH in K3 as (w & r & l' & -> & W & G & N). exists (String c w), r, l'. cbn. rewrite K2, W. repeat split; auto.
      intros [|d w1] w2 E NE; cbn in E; [now subst w2|]. injection E as <- ->. now apply (N w1).
Qed.
Lemma lazy_some (p : ascii -> bool) {B} (g : string -> list B) s w r : s = w +s+ r -> str_forall p w = true -> g r <> [] -> flat_map g (rev (runs p s)) <> [].
Proof.
  intros E W G. assert (I : In r (rev (runs p s))) by (apply -> in_rev; apply runs_iff; eauto). destruct (g r) as [|y l] eqn:H; [congruence|]. intros N.
  assert (J : In y (flat_map g (rev (runs p s)))) by (apply in_flat_map; exists r; rewrite H; cbn; auto). rewrite N in J. destruct J.
Qed.
Lemma in_bang b v cs x : In x (ms (Seqs [Opt (Cap 5 (Chr "!")); Eol]) (mkst b v cs)) <-> v = "" /\ x = mkst b v cs \/ v = "!" /\ x = mkst false "" ((5, "!") :: cs).
Proof.
  rewrite seqs2, seqs1, in_sq. split.
  - intros (y & Y & H). apply in_eol in H as [H ->]. apply in_opt in Y as [Y|Y].
    + apply in_cap in Y as (z & Z & ->). apply in_chr in Z as (t & -> & ->). cbn in H. subst t. right. split; reflexivity.
    + subst y. cbn in H. left. auto.
  - intros [[-> ->]|[-> ->]].
    + exists (mkst b "" cs). split; [apply in_opt; now right|now apply in_eol].
    + exists (mkst false "" ((5, "!") :: cs)). split; [|now apply in_eol]. apply in_opt. left. apply in_cap. exists (mkst false "" cs). split; [apply in_chr; eauto|reflexivity].
Qed.
Lemma no_dash v : str_forall (fun c => negb (Ascii.eqb c "-")) v = true <-> has_char "-" v = false.
Proof. rewrite has_char_str_forall. split; apply str_forall_impl; intros c; now rewrite Ascii.eqb_sym. Qed.
Lemma in_version b v cs x : In x (ms re_gem_version (mkst b v cs)) ->
  exists w inner t cs', before_dash inner w /\ v = " (" +s+ inner +s+ ")" +s+ t /\ x = mkst false t cs' /\ cap_of 3 cs' = w /\ cap_of 1 cs' = cap_of 1 cs /\ cap_of 2 cs' = cap_of 2 cs.
Proof.
  intros H. unfold re_gem_version in H. step H y. apply in_lit in Y as (t & -> & ->). step H y. apply in_cap_star in Y as (w & t1 & W & -> & ->). rewrite no_dash in W.
  step H y. rewrite seqs1 in H. apply in_opt in Y as [Y|Y].
  - apply in_sq in Y as (z & Z & Y). apply in_chr in Z as (t2 & -> & ->). apply in_cap_star in Y as (q & t3 & _ & -> & ->). apply in_chr in H as (t4 & -> & ->).
    exists w, (w +s+ "-" +s+ q), t4. eexists. split; [split; [exact W|right; eauto]|]. split; [|split; [reflexivity|split; [reflexivity|split; reflexivity]]].
    cbn. now rewrite !sapp_assoc.
  - subst y. apply in_chr in H as (t4 & -> & ->). exists w, w, t4. eexists. split; [split; auto|]. split; [reflexivity|]. split; [reflexivity|]. split; [reflexivity|split; reflexivity].
Qed.
Lemma version_ne b inner w t cs : before_dash inner w -> has_char LF inner = false -> exists cs', In (mkst false t cs') (ms re_gem_version (mkst b (" (" +s+ inner +s+ ")" +s+ t) cs)).
Proof.
  intros [W [->|(q & ->)]] L; unfold re_gem_version.
  - eexists. go (mkst false (w +s+ ")" +s+ t) cs); [apply in_lit; eexists; split; reflexivity|]. go (mkst (starts w && false) (")" +s+ t) ((3, w) :: cs)); [apply in_cap_star; exists w; eexists; rewrite no_dash; auto|].
    go (mkst (starts w && false) (")" +s+ t) ((3, w) :: cs)); [apply in_opt; now right|]. rewrite seqs1. apply in_chr. eexists; split; reflexivity.
  - rewrite has_char_app in L. cbn in L. apply orb_false_iff in L as [_ L]. eexists. go (mkst false (w +s+ String "-" (q +s+ ")" +s+ t)) cs); [apply in_lit; eexists; split; [cbn; now rewrite !sapp_assoc|reflexivity]|].
    go (mkst (starts w && false) (String "-" (q +s+ ")" +s+ t)) ((3, w) :: cs)); [apply in_cap_star; exists w; eexists; rewrite no_dash; auto|].
    go (mkst (starts q && false) (")" +s+ t) ((4, q) :: (3, w) :: cs)).
    + apply in_opt. left. apply in_sq. exists (mkst false (q +s+ ")" +s+ t) ((3, w) :: cs)). split; [apply in_chr; eauto|]. apply in_cap_star. exists q. eexists. split; [|split; reflexivity].
      apply has_char_str_forall in L. revert L. apply str_forall_impl. intros c. unfold is_dot. now rewrite (Ascii.eqb_sym c).
    + rewrite seqs1. apply in_chr. eexists; split; reflexivity.
Qed.
Lemma tail_sound b t cs x : cap_of 3 cs = "" -> In x (ms re_gem_tail (mkst b t cs)) ->
  gem_tail t (cap_of 3 (st_caps x)) /\ cap_of 1 (st_caps x) = cap_of 1 cs /\ cap_of 2 (st_caps x) = cap_of 2 cs.
Proof.
  intros C H. unfold re_gem_tail in H. step H y. apply in_opt in Y as [Y|Y].
  - apply in_version in Y as (w & inner & u & cs' & D & -> & -> & C3 & C1 & C2). apply in_bang in H as [[-> ->]|[-> ->]]; cbn [st_caps cap_of Nat.eqb] in *; (split; [|auto]); right; rewrite C3.
    + exists inner, "". repeat split; auto; [now left|apply D|apply D].
    + exists inner, "!". repeat split; auto; [now right|apply D|apply D].
  - subst y. apply in_bang in H as [[-> ->]|[-> ->]]; cbn [st_caps cap_of Nat.eqb]; (split; [|auto]); left; split; auto; [now left|now right].
Qed.
Lemma tail_ne b t cs v : gem_tail t v -> has_char LF t = false -> ms re_gem_tail (mkst b t cs) <> [].
Proof.
  intros T L E. assert (exists x, In x (ms re_gem_tail (mkst b t cs))) as (x & I).
  - unfold re_gem_tail. destruct T as [[T _]|(inner & d & T & -> & D)].
    + destruct T as [->| ->]; eexists; rewrite seqs2, in_sq; eexists; (split; [apply in_opt; right; reflexivity|]); apply in_bang; [left|right]; auto.
    + rewrite has_char_app in L. cbn in L. rewrite has_char_app in L. apply orb_false_iff in L as [L _]. destruct (version_ne b inner v d cs D L) as (cs' & I).
      destruct T as [->| ->]; eexists; rewrite seqs2, in_sq; eexists; (split; [apply in_opt; left; exact I|]); apply in_bang; [left|right]; auto.
  - rewrite E in I. destruct I.
Qed.
Lemma sapp_prefix w : forall r n t, w +s+ r = n +s+ t -> String.length n <= String.length w -> exists z, w = n +s+ z /\ t = z +s+ r.
Proof.
  induction w as [|c w IH]; intros r [|d n] t E L; cbn in *; try lia; [eauto|eauto|]. injection E as <- E. destruct (IH r n t E) as (z & -> & ->); [lia|]. eauto.
Qed.
Lemma hd_flat {A B} (f : A -> list B) a l y m : f a = y :: m -> exists m', flat_map f (a :: l) = y :: m'.
Proof. intros H. cbn. rewrite H. cbn. eauto. Qed.
(** [sp] blanks, and then something else: the expression's groups *)
Lemma spec_find sp body : sp <> "" -> str_forall (fun c => Ascii.eqb c " ") sp = true -> (forall r, body <> " " +s+ r) -> has_char LF body = false ->
  exists m, find re_gem_spec (sp +s+ body) = Some m /\ group m 1 = sp /\ gem_spec body (group m 2) (group m 3).
Proof.
  intros NS S NB L. assert (S' : str_forall (Ascii.eqb " ") sp = true) by (revert S; apply str_forall_impl; intros c; now rewrite Ascii.eqb_sym).
  set (G := fun r => ms re_gem_tail (mkst false r ((2, consumed body r) :: [(1, sp)]))).
  assert (N : flat_map G (rev (runs is_dot body)) <> []).
  { eapply (lazy_some is_dot G body body ""); [now rewrite sapp_nil_r| |].
    - apply has_char_str_forall in L. revert L. apply str_forall_impl. intros c. unfold is_dot. now rewrite (Ascii.eqb_sym c).
    - unfold G. apply (tail_ne _ _ _ ""); [left; split; [now left|reflexivity]|reflexivity]. }
  destruct (flat_map G (rev (runs is_dot body))) as [|x l] eqn:F; [congruence|]. clear N. pose proof F as F0. apply lazy_first in F as (w & r & l' & EB & W & GR & MIN).
  assert (M : exists l2, ms re_gem_spec (mkst true (sp +s+ body) []) = x :: l2).
  { unfold re_gem_spec. rewrite seqs2. change (ms (Sq Bol ?r) (mkst true (sp +s+ body) [])) with (app (ms r (mkst true (sp +s+ body) [])) []). rewrite app_nil_r, seqs2.
    set (T := Seqs [Cap 2 (Star false Dot); re_gem_tail]). assert (TB : ms T (mkst false body [(1, sp)]) = x :: l).
    { unfold T. rewrite seqs2, seqs1. change (ms (Sq ?a ?b) ?s) with (flat_map (ms b) (ms a s)). change (ms (Cap 2 (Star false Dot)) ?s) with
        (map (fun s' => mkst (st_bot s') (st_rest s') ((2, consumed (st_rest s) (st_rest s')) :: st_caps s')) (ms (Star false Dot) s)).
      unfold Dot. rewrite ms_star_cls_l. cbn [st_rest]. rewrite map_map, flat_map_concat_map, map_map, <- flat_map_concat_map. rewrite <- F0. apply flat_map_ext. intros a. unfold G, at_rest. cbn [st_rest st_bot st_caps].
      destruct (Nat.eqb _ _); reflexivity. }
    change (ms (Sq ?a ?b) ?s) with (flat_map (ms b) (ms a s)). destruct sp as [|c sp]; [congruence|]. cbn [str_forall] in S'. apply andb_true_iff in S' as [SC S'].
    assert (P : exists l3, ms (Cap 1 (Plus true (Chr " "))) (mkst true (String c sp +s+ body) []) = mkst false body [(1, String c sp)] :: l3).
    { change (ms (Cap 1 (Plus true (Chr " "))) ?s) with
        (map (fun s' => mkst (st_bot s') (st_rest s') ((1, consumed (st_rest s) (st_rest s')) :: st_caps s')) (ms (Plus true (Chr " ")) s)).
      unfold Chr. rewrite ms_plus_cls_g. cbn [append]. rewrite SC. destruct (runs_hd (Ascii.eqb " ") (sp +s+ body)) as (l3 & ->).
      rewrite span_unique; [|exact S'|intros d t E; destruct (Ascii.eqb_spec " " d) as [<-|]; [destruct (NB t E)|reflexivity]]. cbn [map snd st_bot st_rest st_caps]. eexists. do 4 f_equal.
      apply (consumed_app (String c sp) body). }
    destruct P as (l3 & ->). eapply hd_flat. exact TB. }
  destruct M as (l2 & M). pose proof (find_at_here _ _ _ _ _ M) as FH. eexists. split; [exact FH|]. unfold group. cbn [m_caps].
  assert (I : In x (G r)) by (rewrite GR; now left). unfold G in I. apply tail_sound in I as (T & C1 & C2); [|reflexivity]. cbn [cap_of Nat.eqb] in C1, C2.
  rewrite EB, consumed_app in C2. rewrite C1, C2. split; [reflexivity|]. exists r. split; [exact EB|]. split; [exact T|].
  intros n' t' v' E T'. destruct (Nat.le_gt_cases (String.length w) (String.length n')) as [|LT]; [assumption|exfalso].
  assert (exists w2, w = n' +s+ w2 /\ w2 <> "" /\ t' = w2 +s+ r) as (w2 & Ew & NE & Et).
  { rewrite EB in E. apply sapp_prefix in E; [|lia]. destruct E as (z & -> & ->). exists z. repeat split; auto. intros ->. rewrite sapp_nil_r in LT. lia. }
  subst t'. specialize (MIN n' w2 Ew NE). revert MIN. unfold G. eapply tail_ne; [exact T'|]. rewrite E, has_char_app in L. now apply orb_false_iff in L as [_ L].
Qed.
Lemma spaces_split s : exists sp body, s = sp +s+ body /\ str_forall (fun c => Ascii.eqb c " ") sp = true /\ forall r, body <> " " +s+ r.
Proof.
  induction s as [|c s (sp & body & -> & S & N)]; [exists "", ""; repeat split; discriminate|]. destruct (Ascii.eqb_spec c " ") as [->|C].
  - exists (String " " sp), body. cbn. rewrite S. auto.
  - exists "", (String c (sp +s+ body)). repeat split. intros r E. injection E as E _. congruence.
Qed.
Lemma four_spaces sp : str_forall (fun c => Ascii.eqb c " ") sp = true -> String.length sp = 4 -> sp = "    ".
Proof.
  intros S L. destruct sp as [|a [|b [|c [|d [|e sp]]]]]; cbn in L; try lia. cbn [str_forall] in S. repeat (apply andb_true_iff in S as [?E S]).
  apply Ascii.eqb_eq in E, E0, E1, E2. now subst.
Qed.
Lemma spaces_fun sp body sp' body' : str_forall (fun c => Ascii.eqb c " ") sp = true -> str_forall (fun c => Ascii.eqb c " ") sp' = true ->
  (forall r, body <> " " +s+ r) -> (forall r, body' <> " " +s+ r) -> sp +s+ body = sp' +s+ body' -> sp = sp' /\ body = body'.
Proof.
  intros S S' B B' E.
  assert (H : forall b, (forall r, b <> " " +s+ r) -> forall c t, b = String c t -> Ascii.eqb c " " = false) by (intros b N c t ->; destruct (Ascii.eqb_spec c " ") as [->|]; [destruct (N t eq_refl)|reflexivity]).
  pose proof (span_unique _ _ _ S (H _ B)) as X. pose proof (span_unique _ _ _ S' (H _ B')) as Y. rewrite E, Y in X. injection X as <- <-. auto.
Qed.
Lemma parse_spec_cases l p : has_char LF l = false ->
  (exists n v, spec_line l n v /\ parse_spec l p = Some (add_dependency n v p)) \/ ((forall n v, ~ spec_line l n v) /\ parse_spec l p = Some p).
Proof.
  intros L. destruct (spaces_split l) as (sp & body & -> & S & N). rewrite has_char_app in L. apply orb_false_iff in L as [_ L].
  assert (NOT : sp <> "    " -> forall n v, ~ spec_line (sp +s+ body) n v).
  { intros NE n v (b & E & B & _). apply spaces_fun in E as [-> _]; auto. }
  unfold parse_spec. destruct sp as [|c sp].
  - right. split; [now apply NOT|]. destruct (find _ _) as [m|] eqn:F; [|reflexivity]. exfalso. apply find_some in F as (u & v & x & E & H & _). unfold re_gem_spec in H.
    step H y. apply in_bol in Y as [U ->]. destruct u; [|discriminate]. cbn in E. subst v. step H y. apply in_cap_plus in Y as (w & t & NE & W & E & _). destruct w as [|d w]; [congruence|]. cbn [str_forall] in W. apply andb_true_iff in W as [W _].
    apply Ascii.eqb_eq in W as <-. exact (N _ E).
  - destruct (spec_find (String c sp) body) as (m & F & G1 & G); auto; [discriminate|]. rewrite F, G1. change (seqb (String c sp) "") with false. cbv iota. destruct (Nat.eqb_spec (String.length (String c sp)) 4) as [E|E].
    + left. apply four_spaces in E; [|exact S]. rewrite E. exists (group m 2), (group m 3). split; [|reflexivity]. exists body. auto.
    + right. split; [apply NOT; intros H; now rewrite H in E|reflexivity].
Qed.
(** ** option lines *)
Lemma option_find l : match find re_gem_option l with
  | Some m => exists w r, w <> "" /\ str_forall is_letter w = true /\ l = "  " +s+ w +s+ ": " +s+ r /\ m_text m = l
  | None => forall w r, w <> "" -> str_forall is_letter w = true -> has_char LF r = false -> l <> "  " +s+ w +s+ ": " +s+ r
  end.
Proof.
  destruct (find re_gem_option l) as [m|] eqn:F.
  - apply find_at_some in F as (x & l' & M & R & _ & E & _).
    assert (I : In x (ms re_gem_option (mkst (match m_before m with "" => true | _ => false end) (m_text m +s+ m_after m) []))) by (rewrite M; now left).
    unfold re_gem_option in I. step I y. apply in_bol in Y as [U ->]. destruct (m_before m); [|discriminate]. step I y. apply in_lit in Y as (t & E1 & ->). step I y. apply in_cap_plus in Y as (w & t1 & NW & W & -> & ->).
    step I y. apply in_lit in Y as (t2 & -> & ->). step I y. apply in_cap_star in Y as (r & t3 & RD & -> & ->). rewrite seqs1 in I. apply in_eol in I as [Z ->]. cbn in Z. subst t3. cbn in R. rewrite <- R, sapp_nil_r in *.
    cbn in E. exists w, r. repeat split; auto. rewrite E, E1, sapp_nil_r. reflexivity.
  - intros w r NW W L ->. rewrite find_none in F. refine (F "" _ (mkst _ "" [(2, r); (1, w)]) eq_refl _). unfold re_gem_option.
    go (mkst true ("  " +s+ w +s+ ": " +s+ r) []); [now apply in_bol|]. go (mkst false (w +s+ ": " +s+ r) []); [apply in_lit; eexists; split; reflexivity|].
    go (mkst false (": " +s+ r) [(1, w)]); [apply in_cap_plus; exists w; eexists; auto|]. go (mkst false r [(1, w)]); [apply in_lit; eexists; split; reflexivity|].
    go (mkst (starts r && false) "" [(2, r); (1, w)]); [apply in_cap_star; exists r, ""; rewrite sapp_nil_r; split; [|auto]|rewrite seqs1; now apply in_eol].
    apply has_char_str_forall in L. revert L. apply str_forall_impl. intros c. unfold is_dot. now rewrite (Ascii.eqb_sym c).
Qed.
Definition with_commit (c : string) (p : GemParser) : GemParser := mkGem (gm_state p) (gm_deps p) c.
Lemma seqb_app_ne c : seqb c ("  revision: " +s+ c) = false.
Proof. apply seqb_neq. intros E. apply (f_equal String.length) in E. rewrite slen_app in E. cbn in E. lia. Qed.
Lemma parse_source_cases l p : has_char LF l = false ->
  (exists c, revision_line l c /\ parse_source l p = Some (with_commit c p))
  \/ (exists n v, spec_line l n v /\ parse_source l p = Some (add_dependency n v p))
  \/ other_line l /\ parse_source l p = Some p.
Proof.
  intros L. unfold parse_source. destruct (seqb_spec l "  specs") as [->|NS].
  { right. right. split; [|reflexivity]. split; [intros c E; discriminate|]. intros n v (b & E & _). discriminate. }
  pose proof (option_find l) as O. destruct (find re_gem_option l) as [m|].
  - destruct O as (w & r & NW & W & E & ->). destruct (strip_prefix "  revision: " l) as [c|] eqn:P.
    + apply strip_prefix_some in P. left. exists c. split; [exact P|]. rewrite P, trim_prefix_app, seqb_app_ne. reflexivity.
    + right. right. split.
      * rewrite strip_prefix_none in P. split; [exact P|]. intros n v (b & E' & _). rewrite E in E'. destruct w as [|d w]; [congruence|]. injection E' as -> _. discriminate.
      * unfold trim_prefix. rewrite P. now rewrite seqb_refl.
  - assert (NR : forall c, ~ revision_line l c). { intros c ->. refine (O "revision" c _ _ _ eq_refl); [discriminate|reflexivity|]. rewrite has_char_app in L. now apply orb_false_iff in L. }
    destruct (parse_spec_cases l p L) as [(n & v & S & E)|[S E]]; [right; left; eauto|]. right. right. split; [split; auto|exact E].
Qed.
(** ** states *)
Definition gem_states : list string := [""; "dependency"; "platform"; "ruby"; "bundled_with"; "source"].
Definition good (p : GemParser) : Prop := In (gm_state p) gem_states.
Lemma parse_source_good l p : has_char LF l = false -> exists p', parse_source l p = Some p' /\ gm_state p' = gm_state p.
Proof. intros L. destruct (parse_source_cases l p L) as [(c & _ & ->)|[(n & v & _ & ->)|[_ ->]]]; eexists; split; reflexivity. Qed.
Lemma by_state_good l p : has_char LF l = false -> good p -> gm_state p <> "" -> exists p', parse_by_state l p = Some p' /\ gm_state p' = gm_state p.
Proof.
  intros L G N. unfold parse_by_state. destruct G as [G|[G|[G|[G|[G|[G|[]]]]]]]; rewrite <- G in *; try congruence; cbn -[parse_source]; eauto. rewrite G. apply parse_source_good. exact L.
Qed.
Lemma gem_line_good l p : has_char LF l = false -> good p -> exists p', gem_line p l = Some p' /\ good p'.
Proof.
  intros L G. unfold gem_line. destruct (is_source_section l).
  { destruct (parse_source_good l (mkGem "source" (gm_deps p) "") L) as (p' & -> & E). exists p'. split; [reflexivity|]. unfold good. rewrite E. cbn. auto 10. }
  destruct (seqb l "DEPENDENCIES"); [eexists; split; [reflexivity|cbn; auto 10]|]. destruct (seqb l "PLATFORMS"); [eexists; split; [reflexivity|cbn; auto 10]|].
  destruct (seqb l "RUBY VERSION"); [eexists; split; [reflexivity|cbn; auto 10]|]. destruct (seqb l "BUNDLED WITH"); [eexists; split; [reflexivity|cbn; auto 10]|].
  cbv zeta. set (q := if is_not_indented l then in_state "" p else p). assert (Q : good q) by (unfold q; destruct (is_not_indented l); [now left|exact G]).
  destruct (seqb_spec (gm_state q) ""); cbn [negb]; [eauto|]. destruct (by_state_good l q L Q n) as (p' & -> & E). exists p'. split; [reflexivity|]. unfold good. now rewrite E.
Qed.
Lemma gem_line_empty p : good p -> gem_line p "" = Some p.
Proof. intros G. destruct p as [s d c]. unfold good in G. cbn [gm_state] in G. destruct G as [G|[G|[G|[G|[G|[G|[]]]]]]]; subst s; vm_compute; reflexivity. Qed.
Lemma gem_lines_empty k : forall p ls, good p -> gem_lines p (repeat "" k ++ ls)%list = gem_lines p ls.
Proof. induction k as [|k IH]; intros p ls G; [reflexivity|]. cbn [repeat app gem_lines]. rewrite (gem_line_empty p G). now apply IH. Qed.
Lemma split_raw n : forall b s p ls, good p -> String.length s < n -> raw_lines s ls -> gem_lines p (split_fuel n b re_breaks s) = gem_lines p ls.
Proof.
  induction n as [|n IH]; intros b s p ls G L R; [lia|]. cbn [split_fuel]. pose proof (find_breaks b s) as F. destruct (find_at b re_breaks s) as [m|].
  - destruct F as (u & br & U & B & E & N & C). assert (LU : 0 < String.length u) by (destruct U as [->| ->]; cbn; lia). rewrite E, !slen_app in L.
    destruct (raw_total (S (String.length (m_after m))) (m_after m)) as (la & RA); [lia|]. destruct (units_lines br B _ _ RA) as (k & K).
    assert (R' : raw_lines s (m_before m :: repeat "" k ++ la)%list). { rewrite E. destruct U as [->| ->]; [apply rl_lf; auto|apply rl_crlf; auto]. }
    rewrite (raw_fun _ _ R _ R'). cbn [gem_lines]. destruct (gem_line_good (m_before m) p N G) as (p' & -> & G'). rewrite gem_lines_empty by exact G'. apply IH; auto; lia.
  - assert (R' : raw_lines s [s]) by now constructor. now rewrite (raw_fun _ _ R _ R').
Qed.
Lemma raw_no_lf s ls : raw_lines s ls -> Forall (fun l => has_char LF l = false) ls.
Proof. induction 1; constructor; auto. Qed.
Lemma gem_lines_good ls : forall p, good p -> Forall (fun l => has_char LF l = false) ls -> exists p', gem_lines p ls = Some p' /\ good p'.
Proof.
  induction ls as [|l ls IH]; intros p G F; cbn [gem_lines]; [eauto|]. inversion F; subst. destruct (gem_line_good l p H1 G) as (p' & -> & G'). auto.
Qed.
Definition gem_start : GemParser := mkGem "" [] "".
Lemma start_good : good gem_start. Proof. now left. Qed.
Lemma gem_parse_raw content ls : raw_lines content ls -> gem_parse content = gem_lines gem_start ls.
Proof. intros R. apply split_raw; [apply start_good|lia|exact R]. Qed.
Lemma gem_never_fatal files path : exists r, parse_gemfile_lock files path = Some r.
Proof.
  unfold parse_gemfile_lock. destruct (read_file files path) as [content|]; [|eauto]. destruct (raw_total (S (String.length content)) content) as (ls & R); [lia|].
  rewrite (gem_parse_raw _ _ R). destruct (gem_lines_good ls gem_start start_good (raw_no_lf _ _ R)) as (p & -> & _). cbn. eauto.
Qed.
(** ** sections *)
Lemma indented_iff l : is_not_indented l = false <-> indented l.
Proof.
  unfold is_not_indented, indented. destruct (re_match _ l) eqn:M.
  - split; [discriminate|]. intros H. exfalso. unfold re_match in M. destruct (find _ l) as [m|] eqn:F; [|discriminate]. apply find_some in F as (u & v & x & E & I & _).
    step I y. apply in_bol in Y as [U ->]. destruct u; [|discriminate]. cbn in E. subst v. rewrite seqs1 in I. apply in_cls in I as (c & t & -> & C & _).
    destruct H as [H|(d & t' & H & B)]; [discriminate|]. injection H as <- <-. destruct B as [<-|[<-|[<-|[<-|[<-|[]]]]]]; discriminate.
  - split; [intros _|reflexivity]. destruct l as [|c t]; [now left|]. right. exists c, t. split; [reflexivity|]. unfold re_match in M. destruct (find _ _) eqn:F; [discriminate|]. rewrite find_none in F.
    destruct (is_re_blank c) eqn:B.
    + unfold is_re_blank in B. rewrite !orb_true_iff, !Ascii.eqb_eq in B. unfold blank. cbn. intuition.
    + exfalso. refine (F "" _ (mkst false t []) eq_refl _). go (mkst true (String c t) []); [now apply in_bol|]. rewrite seqs1. apply in_cls. exists c, t. rewrite B. auto.
Qed.
Lemma quiet_iff l : is_source_section l = false <-> quiet l.
Proof.
  unfold is_source_section, quiet. rewrite !orb_false_iff, !contains_false. split.
  - intros [[[A B] C] D] w a b [<-|[<-|[<-|[<-|[]]]]]; auto.
  - intros H. repeat split; intros a b; apply H; cbn; auto 10.
Qed.
Lemma source_loud l : source_header l -> is_source_section l = true.
Proof. intros [<-|[<-|[<-|[<-|[]]]]]; vm_compute; reflexivity. Qed.
Lemma section_names l : In l ["DEPENDENCIES"; "PLATFORMS"; "RUBY VERSION"; "BUNDLED WITH"] -> ~ indented l.
Proof. intros I. rewrite <- indented_iff. destruct I as [<-|[<-|[<-|[<-|[]]]]]; vm_compute; discriminate. Qed.
(** an indented quiet line is read as the state says *)
Lemma body_line p l : indented l -> quiet l -> gem_line p l = if negb (seqb (gm_state p) "") then parse_by_state l p else Some p.
Proof.
  intros I Q. unfold gem_line. rewrite (proj2 (quiet_iff l) Q), (proj2 (indented_iff l) I). 
  destruct (seqb_spec l "DEPENDENCIES") as [->|]; [destruct (section_names "DEPENDENCIES"); cbn; auto|]. destruct (seqb_spec l "PLATFORMS") as [->|]; [destruct (section_names "PLATFORMS"); cbn; auto|].
  destruct (seqb_spec l "RUBY VERSION") as [->|]; [destruct (section_names "RUBY VERSION"); cbn; auto|]. destruct (seqb_spec l "BUNDLED WITH") as [->|]; [destruct (section_names "BUNDLED WITH"); cbn; auto|]. reflexivity.
Qed.
Lemma gem_lines_app a : forall p b, gem_lines p (a ++ b)%list = match gem_lines p a with Some p' => gem_lines p' b | None => None end.
Proof. induction a as [|l a IH]; intros p b; cbn [app gem_lines]; [reflexivity|]. destruct (gem_line p l); [apply IH|reflexivity]. Qed.
(** outside source sections nothing is added *)
Lemma idle_body p b : gm_state p <> "source" -> good p -> Forall (fun l => indented l /\ quiet l) b -> gem_lines p b = Some p.
Proof.
  intros N G F. induction F as [|l b [I Q] F IH]; [reflexivity|]. cbn [gem_lines]. rewrite (body_line p l I Q).
  destruct G as [G|[G|[G|[G|[G|[G|[]]]]]]]; rewrite <- G in *; try congruence; cbn; try exact IH; unfold parse_by_state; rewrite <- G; cbn; exact IH.
Qed.
Lemma source_body : forall b d c, Forall (fun l => indented l /\ quiet l) b -> Forall (fun l => has_char LF l = false) b ->
  exists ps c', gem_lines (mkGem "source" d c) b = Some (mkGem "source" (d ++ ps)%list c') /\ section_makes c b ps.
Proof.
  induction b as [|l b IH]; intros d c F L; [exists [], c; cbn; rewrite app_nil_r; split; [reflexivity|constructor]|].
  inversion F as [|? ? [I Q] F']; subst. inversion L as [|? ? L1 L']; subst. cbn [gem_lines]. rewrite (body_line _ l I Q). cbn [gm_state]. change (negb (seqb "source" "")) with true. cbv iota.
  change (parse_by_state l (mkGem "source" d c)) with (parse_source l (mkGem "source" d c)).
  destruct (parse_source_cases l (mkGem "source" d c) L1) as [(c1 & R & ->)|[(n & v & S & ->)|[O ->]]].
  - unfold with_commit. cbn [gm_state gm_deps]. destruct (IH d c1 F' L') as (ps & c' & E & M). exists ps, c'. split; [exact E|]. eapply sm_revision; eauto.
  - unfold add_dependency. cbn [gm_state gm_deps gm_commit]. destruct (IH (d ++ [mkPkg n v c BundlerEcosystem BundlerEcosystem])%list c F' L') as (ps & c' & E & M).
    exists (mkPkg n v c "RubyGems" "RubyGems" :: ps), c'. split; [rewrite E, <- app_assoc; reflexivity|]. now apply sm_spec.
  - destruct (IH d c F' L') as (ps & c' & E & M). exists ps, c'. split; [exact E|]. now apply sm_other.
Qed.
Lemma parse_source_header h p : source_header h -> parse_source h p = Some p.
Proof. intros [<-|[<-|[<-|[<-|[]]]]]; vm_compute; reflexivity. Qed.
Lemma quiet_header p h : good p -> ~ indented h -> quiet h -> exists s, gem_line p h = Some (in_state s p) /\ s <> "source" /\ good (in_state s p).
Proof.
  intros G I Q. unfold gem_line. rewrite (proj2 (quiet_iff h) Q). assert (N : is_not_indented h = true). { destruct (is_not_indented h) eqn:E; [reflexivity|]. apply indented_iff in E. contradiction. }
  destruct (seqb h "DEPENDENCIES"); [exists "dependency"; split; [reflexivity|split; [discriminate|cbn; auto 10]]|]. destruct (seqb h "PLATFORMS"); [exists "platform"; split; [reflexivity|split; [discriminate|cbn; auto 10]]|].
  destruct (seqb h "RUBY VERSION"); [exists "ruby"; split; [reflexivity|split; [discriminate|cbn; auto 10]]|]. destruct (seqb h "BUNDLED WITH"); [exists "bundled_with"; split; [reflexivity|split; [discriminate|cbn; auto 10]]|].
  rewrite N. exists "". split; [reflexivity|]. split; [discriminate|now left].
Qed.
Lemma header_loud h : source_header h -> ~ quiet h.
Proof. intros H Q. apply quiet_iff in Q. rewrite (source_loud h H) in Q. discriminate. Qed.
Lemma opens_iff l : opens l <-> is_source_section l = true \/ is_not_indented l = true.
Proof.
  unfold opens. rewrite <- quiet_iff, <- indented_iff. destruct (is_source_section l), (is_not_indented l); intuition congruence.
Qed.
Lemma closed_iff l : ~ opens l <-> indented l /\ quiet l.
Proof. rewrite opens_iff, <- quiet_iff, <- indented_iff. destruct (is_source_section l), (is_not_indented l); intuition congruence. Qed.
Lemma closed_body b : Forall (fun l => ~ opens l) b -> Forall (fun l => indented l /\ quiet l) b.
Proof. apply Forall_impl. intros l. apply closed_iff. Qed.
Lemma sections_total ls : exists ss, gem_sections ls ss.
Proof.
  induction ls as [|l ls (ss & pre & P & S & ->)]; [exists [], []; repeat split; constructor|].
  assert (D : opens l \/ ~ opens l) by (rewrite opens_iff; destruct (is_source_section l), (is_not_indented l); intuition congruence). destruct D as [O|O].
  - exists ((l, pre) :: ss), []. split; [constructor|]. split; [constructor; [split; assumption|exact S]|reflexivity].
  - exists ss, (l :: pre). split; [now constructor|]. split; [exact S|reflexivity].
Qed.
Lemma body_fun (pre : list string) : forall ss pre' ss', Forall (fun l => ~ opens l) pre -> Forall section_ok ss -> Forall (fun l => ~ opens l) pre' -> Forall section_ok ss' ->
  (pre ++ flat_map (fun s : section => fst s :: snd s) ss)%list = (pre' ++ flat_map (fun s : section => fst s :: snd s) ss')%list ->
  pre = pre' /\ flat_map (fun s : section => fst s :: snd s) ss = flat_map (fun s : section => fst s :: snd s) ss'.
Proof.
  induction pre as [|x pre IH]; intros ss pre' ss' P S P' S' E.
  - destruct pre' as [|y pre']; [auto|]. destruct ss as [|[h b] ss]; [discriminate|]. injection E as <- E. inversion P' as [|? ? N _]; subst. inversion S as [|? ? [O _] _]; subst. contradiction.
  - inversion P as [|? ? N P1]; subst. destruct pre' as [|y pre'].
    + destruct ss' as [|[h b] ss']; [discriminate|]. injection E as -> E. inversion S' as [|? ? [O _] _]; subst. contradiction.
    + injection E as -> E. inversion P' as [|? ? _ P1']; subst. destruct (IH ss pre' ss' P1 S P1' S' E) as [-> F]. auto.
Qed.
Lemma sections_only ls ss ss' : gem_sections ls ss -> gem_sections ls ss' -> ss = ss'.
Proof.
  intros (pre & P & S & ->) (pre' & P' & S' & E). apply body_fun in E as [_ E]; auto. clear P P'. revert ss' S' E. induction S as [|[h b] ss [O B] S IH]; intros [|[h' b'] ss'] S' E; try discriminate; [reflexivity|].
  inversion S' as [|? ? [O' B'] S1]; subst. cbn [flat_map fst snd app] in E. injection E as -> E. apply body_fun in E as [-> E]; auto. f_equal. auto.
Qed.
Lemma sections_run : forall ss p, good p -> Forall section_ok ss -> Forall (fun l => has_char LF l = false) (flat_map (fun s => fst s :: snd s) ss) ->
  exists p' ps, gem_lines p (flat_map (fun s => fst s :: snd s) ss) = Some p' /\ gm_deps p' = (gm_deps p ++ ps)%list /\ sections_make ss ps.
Proof.
  induction ss as [|[h b] ss IH]; intros p G F L; [exists p, []; cbn; rewrite app_nil_r; split; [reflexivity|]; split; [reflexivity|constructor]|].
  inversion F as [|? ? (O & B) F']; subst. cbn [fst snd] in *. cbn [flat_map fst snd app] in L |- *. inversion L as [|? ? LH LR]; subst. apply Forall_app in LR as [LB LR]. apply closed_body in B.
  cbn [gem_lines]. destruct (is_source_section h) eqn:H.
  - assert (NQ : ~ quiet h) by (rewrite <- quiet_iff; congruence). unfold gem_line at 1. rewrite H.
    assert (X : exists ps c', match parse_source h (mkGem "source" (gm_deps p) "") with Some q => gem_lines q b | None => None end = Some (mkGem "source" (gm_deps p ++ ps)%list c') /\ section_makes "" (h :: b) ps).
    { destruct (parse_source_cases h (mkGem "source" (gm_deps p) "") LH) as [(c1 & R & ->)|[(n & v & S & ->)|[OL ->]]].
      - unfold with_commit. cbn [gm_state gm_deps]. destruct (source_body b (gm_deps p) c1 B LB) as (ps & c' & -> & M). exists ps, c'. split; [reflexivity|]. eapply sm_revision; eauto.
      - unfold add_dependency. cbn [gm_state gm_deps gm_commit]. destruct (source_body b (gm_deps p ++ [mkPkg n v "" BundlerEcosystem BundlerEcosystem])%list "" B LB) as (ps & c' & -> & M).
        exists (mkPkg n v "" "RubyGems" "RubyGems" :: ps), c'. split; [rewrite <- app_assoc; reflexivity|]. now apply sm_spec.
      - destruct (source_body b (gm_deps p) "" B LB) as (ps & c' & -> & M). exists ps, c'. split; [reflexivity|]. now apply sm_other. }
    destruct X as (ps & c' & X & M). destruct (parse_source h _) as [q|]; [|discriminate]. rewrite gem_lines_app, X.
    destruct (IH (mkGem "source" (gm_deps p ++ ps)%list c')) as (p' & qs & -> & D & MS); auto; [cbn; auto 10|]. exists p', (ps ++ qs)%list. split; [reflexivity|]. cbn in D. rewrite D, <- app_assoc. split; [reflexivity|]. now apply ss_source.
  - assert (Q : quiet h) by now apply quiet_iff. assert (NI : ~ indented h) by (destruct O as [O|O]; [contradiction|exact O]).
    destruct (quiet_header p h G NI Q) as (s & -> & NS & G'). rewrite gem_lines_app, (idle_body (in_state s p) b NS G' B). destruct (IH (in_state s p) G' F' LR) as (p' & qs & -> & D & MS). exists p', qs. split; [reflexivity|]. split; [exact D|].
    now apply ss_other.
Qed.
Lemma gem_lock files path content ls ss : files path = Text content false -> raw_lines content ls -> gem_sections ls ss ->
  exists ps, parse_gemfile_lock files path = Some (Ok (inr ps)) /\ sections_make ss ps.
Proof.
  intros F R (pre & P & S & ->). pose proof (raw_no_lf _ _ R) as L. apply Forall_app in L as [_ L]. apply closed_body in P. unfold parse_gemfile_lock, read_file. rewrite F, (gem_parse_raw _ _ R), gem_lines_app, (idle_body gem_start pre); [|discriminate|apply start_good|exact P].
  destruct (sections_run ss gem_start start_good S L) as (p' & ps & -> & D & M). exists ps. cbn. cbn in D. rewrite D. split; [reflexivity|exact M].
Qed.
Lemma gem_unread files path : (forall content, files path <> Text content false) -> parse_gemfile_lock files path = Some (fails_with (FRead path)).
Proof. intros N. unfold parse_gemfile_lock, read_file. destruct (files path) as [|c []] eqn:E; try reflexivity. destruct (N c eq_refl). Qed.
(** ** one result *)
Lemma before_dash_fun i v w : before_dash i v -> before_dash i w -> v = w.
Proof.
  assert (H : forall i v, before_dash i v -> cut_before i "-" = v).
  { intros j x [X [->|(p & ->)]]; unfold cut_before; [now rewrite cut_char_absent|]. change ("-" +s+ p) with (String "-" p). now rewrite cut_char_found. }
  intros A B. apply H in A, B. congruence.
Qed.
Lemma snoc_inj a c b d : a +s+ String c "" = b +s+ String d "" -> a = b /\ c = d.
Proof.
  intros E. apply (f_equal str_rev) in E. rewrite !str_rev_append in E. cbn in E. injection E as -> E. split; [|reflexivity].
  rewrite <- (str_rev_involutive a), E. apply str_rev_involutive.
Qed.
Lemma tail_fun t v w : gem_tail t v -> gem_tail t w -> v = w.
Proof.
  intros [[B ->]|(i & b & B & -> & D)] [[B' ->]|(i' & b' & B' & E & D')]; [reflexivity| | |].
  - subst t. destruct B as [B|B]; discriminate.
  - destruct B' as [B'|B']; discriminate.
  - apply sapp_inj_l in E. assert (i = i'); [|subst; eapply before_dash_fun; eauto]. destruct B as [->| ->], B' as [->| ->]; cbn in E.
    + now apply snoc_inj in E as [-> _].
    + replace (i' +s+ String ")" "!") with ((i' +s+ ")") +s+ "!") in E by now rewrite sapp_assoc. apply snoc_inj in E as [_ E]. discriminate.
    + replace (i +s+ String ")" "!") with ((i +s+ ")") +s+ "!") in E by now rewrite sapp_assoc. apply snoc_inj in E as [_ E]. discriminate.
    + replace (i' +s+ String ")" "!") with ((i' +s+ ")") +s+ "!") in E by now rewrite sapp_assoc. replace (i +s+ String ")" "!") with ((i +s+ ")") +s+ "!") in E by now rewrite sapp_assoc.
      apply snoc_inj in E as [E _]. now apply snoc_inj in E as [-> _].
Qed.
Lemma gem_spec_fun body n v n' v' : gem_spec body n v -> gem_spec body n' v' -> n = n' /\ v = v'.
Proof.
  intros (t & E & T & M) (t' & E' & T' & M'). pose proof (M _ _ _ E' T') as L1. pose proof (M' _ _ _ E T) as L2. rewrite E in E'. apply sapp_inj_len in E' as [-> ->]; [|lia]. split; [reflexivity|]. eapply tail_fun; eauto.
Qed.
Lemma spec_line_fun l n v n' v' : spec_line l n v -> spec_line l n' v' -> n = n' /\ v = v'.
Proof. intros (b & -> & _ & S) (b' & E & _ & S'). apply sapp_inj_l in E as ->. eapply gem_spec_fun; eauto. Qed.
Lemma revision_spec l c n v : revision_line l c -> spec_line l n v -> False.
Proof. intros -> (b & E & _). discriminate. Qed.
Lemma section_fun c b ps : section_makes c b ps -> forall qs, section_makes c b qs -> ps = qs.
Proof.
  induction 1 as [c|c l c' ls ps R M IH|c l n v ls ps S M IH|c l ls ps [O1 O2] M IH]; intros qs H; inversion H as [|? ? c2 ? ? R' M'|? ? n2 v2 ? ? S' M'|? ? ? ? [O1' O2'] M']; subst; auto.
  - unfold revision_line in R, R'. rewrite R in R'. apply sapp_inj_l in R' as <-. auto.
  - destruct (revision_spec _ _ _ _ R S').
  - destruct (O1' _ R).
  - destruct (revision_spec _ _ _ _ R' S).
  - destruct (spec_line_fun _ _ _ _ _ S S') as [-> ->]. f_equal. auto.
  - destruct (O2' _ _ S).
  - destruct (O1 _ R').
  - destruct (O2 _ _ S').
Qed.
Lemma sections_fun ss ps : sections_make ss ps -> forall qs, sections_make ss qs -> ps = qs.
Proof.
  induction 1 as [|h b ss ps qs H S M IH|h b ss qs H M IH]; intros rs R; inversion R; subst; auto; try contradiction. f_equal; [eapply section_fun; eauto|auto].
Qed.
Lemma header_other h : source_header h -> other_line h.
Proof. intros [<-|[<-|[<-|[<-|[]]]]]; (split; [intros c E; discriminate|intros n v (b & E & _); discriminate]). Qed.
Lemma usual_make ss ps : Forall (fun s : section => source_header (fst s) \/ quiet (fst s)) ss -> sections_make ss ps -> usual_sections ss ps.
Proof.
  intros F M. induction M as [|h b ss ps qs H S M IH|h b ss qs H M IH]; [constructor| |]; inversion F as [|? ? X F']; subst; cbn [fst] in X.
  - destruct X as [X|X]; [|contradiction]. apply us_source; auto. inversion S as [|? ? c' ? ? R' M'|? ? n v ? ? S' M'|]; subst; auto; destruct (header_other h X) as [O1 O2]; [destruct (O1 _ R')|destruct (O2 _ _ S')].
  - apply us_other; auto.
Qed.
(** ** ordinary spec lines *)
Lemma gem_spec_plain n inner b v : has_char " " n = false -> bang b -> before_dash inner v -> gem_spec (n +s+ " (" +s+ inner +s+ ")" +s+ b) n v.
Proof.
  intros N B D. exists (" (" +s+ inner +s+ ")" +s+ b). split; [reflexivity|]. split; [right; eauto|]. intros n' t' v' E T. destruct (Nat.le_gt_cases (String.length n) (String.length n')) as [|LT]; [assumption|exfalso].
  apply sapp_prefix in E as (z & -> & ->); [|lia]. destruct z as [|c z]; [rewrite sapp_nil_r in LT; lia|]. rewrite has_char_app in N. apply orb_false_iff in N as [_ N]. cbn in N. apply orb_false_iff in N as [C _].
  destruct T as [[T _]|(i & b' & _ & E & _)].
  - destruct T as [T|T]; [discriminate|]. destruct z; discriminate.
  - injection E as -> _. discriminate.
Qed.
