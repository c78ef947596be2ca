(** Maps built from entries. *)
From Verif Require Import GoStr GoStrFacts Types MemDB MemDBProofs GoMap Scan PkgMapSpec PkgMap.

(** every key of the entries, each with a value some entry gives it *)
Record built {A} (m es : list (string * A)) : Prop := mkBuilt {
  bu_keys : NoDup (map fst m);
  bu_from : incl m es;
  bu_all : incl (map fst es) (map fst m) }.
Lemma built_nil {A} : built (A := A) [] [].
Proof. split; [constructor|intros x []|intros x []]. Qed.
Lemma built_set {A} m es k (v : A) : built m es -> built (map_set k v m) (es ++ [(k, v)]).
Proof.
  intros [N F C]. split; [now apply map_set_nodup| |].
  - intros [k' v'] H. apply in_or_app. apply map_set_in in H as [[-> ->]|H]; [right; now left|left; auto].
  - intros x H. rewrite map_app in H. apply map_set_keys. apply in_app_or in H as [H|[<-|[]]]; [right; auto|now left].
Qed.
Lemma built_fold {A} l : forall m es, built (A := A) m es -> built (fold_left (fun m '(k, v) => map_set k v m) l m) (es ++ l).
Proof.
  induction l as [|[k v] l IH]; intros m es H; cbn; [now rewrite app_nil_r|].
  replace (es ++ (k, v) :: l) with ((es ++ [(k, v)]) ++ l) by (rewrite <- app_assoc; reflexivity). apply IH. now apply built_set.
Qed.
Lemma built_ext {A} m es es' : built (A := A) m es -> incl es es' -> incl (map fst es') (map fst es) -> built m es'.
Proof. intros [N F C] I K. split; [exact N|eapply incl_tran; eauto|eapply incl_tran; eauto]. Qed.
Lemma built_perm {A} m es es' : built (A := A) m es -> Permutation es es' -> built m es'.
Proof.
  intros B P. eapply built_ext; [exact B| |].
  - intros x X. eapply Permutation_in; eauto.
  - intros x X. eapply Permutation_in; [apply Permutation_map; symmetry; exact P|exact X].
Qed.
(** putting the entries of another map *)
Lemma built_trans {A} m es src es' : built (A := A) m (es ++ src) -> built src es' -> built m (es ++ es').
Proof.
  intros B [N F C]. eapply built_ext; [exact B|apply incl_app_app; [apply incl_refl|exact F]|].
  rewrite !map_app. apply incl_app_app; [apply incl_refl|exact C].
Qed.
Lemma map_set_fresh {A} (m : list (string * A)) k v : ~ In k (map fst m) -> map_set k v m = m ++ [(k, v)].
Proof. induction m as [|[a b] m IH]; cbn; [reflexivity|]. intros H. destruct (seqb_spec a k); [tauto|]. now rewrite IH by tauto. Qed.
Lemma built_id {A} (l : list (string * A)) : NoDup (map fst l) -> built l l.
Proof. intros N. split; [exact N|apply incl_refl|apply incl_refl]. Qed.

(** what the values are *)
Record pick (es : list (string * Pkg)) (out : list Pkg) : Prop := mkPick {
  pk_from : incl out (map snd es);
  pk_all : forall k p, In (k, p) es -> exists p', In p' out /\ In (k, p') es;
  pk_len : exists m, NoDup (map fst m) /\ out = map snd m /\ incl m es }.
Lemma built_slice it m es : IterOk it -> built m es -> pick es (map_to_slice it m).
Proof.
  intros IT [N F C]. pose proof (IT _ m) as P. unfold map_to_slice. split.
  - intros p H. apply in_map_iff in H as ([k q] & <- & H). apply in_map_iff. exists (k, q). split; [reflexivity|]. apply F. eapply Permutation_in; [symmetry; exact P|exact H].
  - intros k p H. assert (In k (map fst m)) as K by (apply C, in_map_iff; now exists (k, p)). apply in_map_iff in K as ([k' q] & E & K). cbn in E. subst k'.
    exists q. split; [|auto]. apply in_map_iff. exists (k, q). split; [reflexivity|]. eapply Permutation_in; [exact P|exact K].
  - exists (it _ m). split; [|split; [reflexivity|]].
    + eapply Permutation_NoDup; [apply Permutation_map; exact P|exact N].
    + intros x X. apply F. eapply Permutation_in; [symmetry; exact P|exact X].
Qed.
Lemma pick_key (key : Pkg -> string) es out : pick es out -> (forall k p, In (k, p) es -> k = key p) -> once_per key (map snd es) out.
Proof.
  intros [F C (m & N & -> & I)] K. split.
  - assert (E : map key (map snd m) = map fst m) by (rewrite map_map; apply map_ext_in; intros [k p] H; cbn; symmetry; apply K; auto). now rewrite E.
  - exact F.
  - intros p H. apply in_map_iff in H as ([k q] & <- & H). cbn. destruct (C k q H) as (p' & P & Q). rewrite <- (K _ _ H), (K _ _ Q). now apply in_map.
Qed.
(** when the key decides the package, the packages are exactly those of the entries *)
Lemma pick_exact es out : pick es out -> (forall k p q, In (k, p) es -> In (k, q) es -> p = q) -> forall p, In p out <-> In p (map snd es).
Proof.
  intros [F C _] U p. split; [apply F|]. intros H. apply in_map_iff in H as ([k q] & <- & H). destruct (C k q H) as (p' & P & Q). now rewrite (U _ _ _ H Q).
Qed.
(** the version and name are decided by name@version when the version has no @ *)
Lemma at_key n v n' v' : has_char "@" v = false -> has_char "@" v' = false -> n +s+ "@" +s+ v = n' +s+ "@" +s+ v' -> n = n' /\ v = v'.
Proof.
  intros H H' E. cbn in E. assert (X : cut_last "@" (n +s+ String "@" v) = Some (n, v)) by now apply cut_last_some.
  assert (Y : cut_last "@" (n' +s+ String "@" v') = Some (n', v')) by now apply cut_last_some. rewrite E, Y in X. injection X as -> ->. auto.
Qed.
(** one value per key *)
Lemma built_per_key it m es (R : string -> Pkg -> Prop) : IterOk it -> built m es -> (forall k p, In (k, p) es <-> R k p) -> per_key R (map_to_slice it m).
Proof.
  intros IT [N F C] I. exists m. split; [unfold map_to_slice; apply Permutation_map, IT|]. split; [exact N|]. split.
  - intros k p H. apply I, F, H.
  - intros k p H. apply I in H. apply (in_map fst) in H. apply C in H. apply in_map_iff in H as ([k2 q] & E & H). cbn in E. subst k2. eauto.
Qed.
Lemma per_key_exact (R : string -> Pkg -> Prop) ps : per_key R ps -> (forall k p q, R k p -> R k q -> p = q) -> forall p, In p ps <-> exists k, R k p.
Proof.
  intros (m & P & N & F & C) U p. split.
  - intros H. eapply Permutation_in in H; [|symmetry; exact P]. apply in_map_iff in H as ([k q] & <- & H). exists k. auto.
  - intros (k & H). destruct (C k p H) as (q & Q). eapply Permutation_in; [exact P|]. rewrite (U k p q H (F k q Q)). apply in_map_iff. now exists (k, q).
Qed.
Lemma per_key_perm (R : string -> Pkg -> Prop) ps ps' : per_key R ps -> per_key R ps' -> (forall k p q, R k p -> R k q -> p = q) -> Permutation ps ps'.
Proof.
  intros (m & P & N & F & C) (m' & P' & N' & F' & C') U. rewrite <- P, <- P'. apply Permutation_map. apply NoDup_Permutation.
  - eapply NoDup_map_inv; exact N.
  - eapply NoDup_map_inv; exact N'.
  - intros [k p]. split; intros H.
    + destruct (C' k p (F k p H)) as (q & Q). now rewrite (U k p q (F _ _ H) (F' _ _ Q)).
    + destruct (C k p (F' k p H)) as (q & Q). now rewrite (U k p q (F' _ _ H) (F _ _ Q)).
Qed.
