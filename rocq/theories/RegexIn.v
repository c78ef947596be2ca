(** Membership in the ways an expression matches, form by form. *)
From Verif Require Import GoStr GoStrFacts Regex RegexFacts.
From Coq Require Import Lia Arith.

Definition starts (u : string) : bool := match u with "" => true | _ => false end.
Lemma in_sq a b s x : In x (ms (Sq a b) s) <-> exists y, In y (ms a s) /\ In x (ms b y).
Proof. cbn [ms]. apply in_flat_map. Qed.
Lemma in_alt a b s x : In x (ms (Alt a b) s) <-> In x (ms a s) \/ In x (ms b s).
Proof. cbn [ms]. apply in_app_iff. Qed.
Lemma in_eps s x : In x (ms Eps s) <-> x = s.
Proof. cbn. split; [intros [<-|[]]|intros ->]; auto. Qed.
Lemma in_bol s x : In x (ms Bol s) <-> st_bot s = true /\ x = s.
Proof. cbn. destruct (st_bot s); cbn; split; [intros [<-|[]]|intros [_ ->]|intros []|intros [H _]]; auto; discriminate. Qed.
Lemma in_eol s x : In x (ms Eol s) <-> st_rest s = "" /\ x = s.
Proof. cbn. destruct (st_rest s) eqn:E; cbn; split; [intros [<-|[]]|intros [_ ->]|intros []|intros [H _]]; auto; discriminate. Qed.
Lemma in_cls p b v cs x : In x (ms (Cls p) (mkst b v cs)) <-> exists c t, v = String c t /\ p c = true /\ x = mkst false t cs.
Proof.
  cbn. destruct v as [|c t]; [split; [intros []|intros (c & t & H & _); discriminate]|]. destruct (p c) eqn:P; cbn; split.
  - intros [<-|[]]. eauto.
  - intros (d & u & E & _ & ->). injection E as <- <-. auto.
  - intros [].
  - intros (d & u & E & H & _). injection E as <- <-. congruence.
Qed.
Lemma in_chr c b v cs x : In x (ms (Chr c) (mkst b v cs)) <-> exists t, v = String c t /\ x = mkst false t cs.
Proof.
  unfold Chr. rewrite in_cls. split.
  - intros (d & t & -> & E & ->). apply Ascii.eqb_eq in E as <-. eauto.
  - intros (t & -> & ->). exists c, t. rewrite Ascii.eqb_refl. auto.
Qed.
Lemma in_lit c l b v cs x : In x (ms (Lit (String c l)) (mkst b v cs)) <-> exists t, v = String c l +s+ t /\ x = mkst false t cs.
Proof.
  rewrite ms_lit. destruct (strip_prefix (String c l) v) as [t|] eqn:S.
  - apply strip_prefix_some in S. subst. cbn [In]. split; [intros [<-|[]]; eauto|]. intros (u & E & ->). apply sapp_inj_l in E as ->. auto.
  - split; [intros []|]. intros (t & -> & _). rewrite strip_prefix_app in S. discriminate.
Qed.
Lemma runs_iff p s r : In r (runs p s) <-> exists w, str_forall p w = true /\ s = w +s+ r.
Proof.
  revert r. induction s as [|c s IH]; intros r; cbn.
  - split; [intros [<-|[]]; exists ""; auto|]. intros (w & _ & E). symmetry in E. apply sapp_nil_inv in E as [_ ->]. now left.
  - destruct (p c) eqn:P.
    + rewrite in_app_iff, IH. cbn. split.
      * intros [(w & F & ->)|[<-|[]]]; [exists (String c w); cbn; rewrite P; auto|exists ""; auto].
      * intros ([|d w] & F & E); cbn in *; [auto|]. injection E as <- ->. apply andb_true_iff in F as [_ F]. left. eauto.
    + split; [intros [<-|[]]; exists ""; auto|]. intros ([|d w] & F & E); cbn in *; [auto|]. injection E as <- ->. rewrite P in F. discriminate.
Qed.
Lemma in_plus p b v cs x : In x (ms (Plus true (Cls p)) (mkst b v cs)) <-> exists w t, w <> "" /\ str_forall p w = true /\ v = w +s+ t /\ x = mkst false t cs.
Proof.
  rewrite ms_plus_cls_g. destruct v as [|c v].
  - split; [intros []|]. intros (w & t & N & _ & E & _). symmetry in E. apply sapp_nil_inv in E as [-> _]. congruence.
  - destruct (p c) eqn:P.
    + rewrite in_map_iff. split.
      * intros (r & <- & R). apply runs_iff in R as (w & F & ->). exists (String c w), r. cbn. rewrite P. repeat split; auto; discriminate.
      * intros ([|d w] & t & N & F & E & ->); [congruence|]. cbn in *. injection E as <- ->. exists t. split; [reflexivity|]. apply runs_iff. apply andb_true_iff in F as [_ F]. eauto.
    + split; [intros []|]. intros ([|d w] & t & N & F & E & _); [congruence|]. cbn in *. injection E as <- ->. rewrite P in F. discriminate.
Qed.
Lemma in_star p b v cs x : In x (ms (Star true (Cls p)) (mkst b v cs)) <-> exists w t, str_forall p w = true /\ v = w +s+ t /\ x = mkst (starts w && b) t cs.
Proof.
  rewrite ms_star_cls_g, in_map_iff. cbn [st_rest].
  assert (A : forall w t, at_rest (mkst b (w +s+ t) cs) t = mkst (starts w && b) t cs).
  { intros w t. unfold at_rest. cbn [st_rest st_bot st_caps]. rewrite slen_app. destruct w as [|c w]; cbn [starts andb String.length Nat.add]; [now rewrite Nat.eqb_refl|].
    destruct (Nat.eqb_spec (String.length t) (S (String.length w + String.length t))); [lia|reflexivity]. }
  split.
  - intros (r & <- & R). apply runs_iff in R as (w & F & ->). exists w, r. rewrite A. auto.
  - intros (w & t & F & -> & ->). exists t. split; [apply A|]. apply runs_iff. eauto.
Qed.
Lemma in_cap n a b v cs x : In x (ms (Cap n a) (mkst b v cs)) <-> exists y, In y (ms a (mkst b v cs)) /\ x = mkst (st_bot y) (st_rest y) ((n, consumed v (st_rest y)) :: st_caps y).
Proof. cbn [ms st_rest]. rewrite in_map_iff. split; intros (y & A & B); exists y; auto. Qed.
Lemma in_cap_plus n p b v cs x : In x (ms (Cap n (Plus true (Cls p))) (mkst b v cs))
  <-> exists w t, w <> "" /\ str_forall p w = true /\ v = w +s+ t /\ x = mkst false t ((n, w) :: cs).
Proof.
  rewrite in_cap. split.
  - intros (y & Y & ->). apply in_plus in Y as (w & t & N & F & -> & ->). exists w, t. cbn. rewrite consumed_app. auto.
  - intros (w & t & N & F & -> & ->). exists (mkst false t cs). rewrite in_plus. split; [eauto 7|]. cbn. now rewrite consumed_app.
Qed.
Lemma in_cap_star n p b v cs x : In x (ms (Cap n (Star true (Cls p))) (mkst b v cs))
  <-> exists w t, str_forall p w = true /\ v = w +s+ t /\ x = mkst (starts w && b) t ((n, w) :: cs).
Proof.
  rewrite in_cap. split.
  - intros (y & Y & ->). apply in_star in Y as (w & t & F & -> & ->). exists w, t. cbn. rewrite consumed_app. auto.
  - intros (w & t & F & -> & ->). exists (mkst (starts w && b) t cs). rewrite in_star. split; [eauto 7|]. cbn. now rewrite consumed_app.
Qed.
Lemma in_opt a s x : In x (ms (Opt a) s) <-> In x (ms a s) \/ x = s.
Proof. unfold Opt. now rewrite in_alt, in_eps. Qed.
(** finding *)
Lemma find_none r s : find r s = None <-> forall u v x, s = u +s+ v -> ~ In x (ms r (mkst (starts u) v [])).
Proof.
  split.
  - intros F u v x E I. pose proof (find_at_none r s true F u v E) as N. unfold starts in I. destruct u; rewrite N in I; destruct I.
  - intros H. unfold find. destruct (find_at true r s) as [m|] eqn:F; [|reflexivity]. exfalso. apply find_at_some in F as (x & l & M & _ & _ & E & _).
    apply (H (m_before m) (m_text m +s+ m_after m) x E). unfold starts. destruct (m_before m); rewrite M; now left.
Qed.
Lemma find_some r s m : find r s = Some m -> exists u v x, s = u +s+ v /\ In x (ms r (mkst (starts u) v [])) /\ m_caps m = st_caps x /\ m_after m = st_rest x.
Proof.
  intros F. apply find_at_some in F as (x & l & M & R & C & E & _). exists (m_before m), (m_text m +s+ m_after m), x. split; [exact E|].
  split; [unfold starts; destruct (m_before m); rewrite M; now left|]. auto.
Qed.
