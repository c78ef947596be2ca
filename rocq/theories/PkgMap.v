(** Maps built by putting elements under their keys. *)
From Verif Require Import GoStr GoStrFacts Types MemDB MemDBProofs GoMap Scan PkgMapSpec.

Definition keyed {A} (key : A -> string) (m : list (string * A)) (l : list A) : Prop :=
  NoDup (map fst m) /\ (forall k x, In (k, x) m -> k = key x /\ In x l) /\ forall x, In x l -> In (key x) (map fst m).
Lemma map_set_in {A} k (v : A) m k' v' : In (k', v') (map_set k v m) -> (k' = k /\ v' = v) \/ In (k', v') m.
Proof.
  induction m as [|[a b] m IH]; cbn; [intros [H|[]]; injection H; auto|]. destruct (seqb_spec a k).
  - intros [H|H]; [injection H; intros; subst; auto|auto].
  - intros [H|H]; [auto|]. apply IH in H as [H|H]; auto.
Qed.
Lemma map_set_in_old {A} k (v : A) m k' v' : NoDup (map fst m) -> In (k', v') (map_set k v m) -> (k' = k /\ v' = v) \/ (k' <> k /\ In (k', v') m).
Proof.
  intros N H. pose proof (map_set_nodup k v m N) as N'. apply (MemDBProofs.map_get_in _ _ _ N') in H. rewrite map_get_set in H.
  destruct (seqb_spec k k'); [left; split; congruence|right]. split; [congruence|]. now apply (MemDBProofs.map_get_in _ _ _ N).
Qed.
Lemma keyed_nil {A} (key : A -> string) : keyed key [] [].
Proof. split; [constructor|]. split; [intros k x []|intros x []]. Qed.
Lemma keyed_put {A} (key : A -> string) m l x : keyed key m l -> keyed key (map_set (key x) x m) (l ++ [x]).
Proof.
  intros (N & F & C). split; [now apply map_set_nodup|]. split.
  - intros k y H. apply map_set_in in H as [[-> ->]|H].
    + split; [reflexivity|]. apply in_or_app. right. now left.
    + apply F in H as [-> H]. split; [reflexivity|]. apply in_or_app. now left.
  - intros y Y. apply map_set_keys. apply in_app_or in Y as [Y|[<-|[]]]; [right; auto|now left].
Qed.
Lemma keyed_fold {A} (key : A -> string) l : forall m l0, keyed key m l0 -> keyed key (fold_left (fun m x => map_set (key x) x m) l m) (l0 ++ l).
Proof.
  induction l as [|x l IH]; intros m l0 H; cbn; [now rewrite app_nil_r|].
  replace (l0 ++ x :: l) with ((l0 ++ [x]) ++ l) by (rewrite <- app_assoc; reflexivity). apply IH. now apply keyed_put.
Qed.
Lemma keyed_slice it (key : Pkg -> string) m l : IterOk it -> keyed key m l -> once_per key l (map_to_slice it m).
Proof.
  intros IT (N & F & C). pose proof (IT _ m) as P. unfold map_to_slice.
  assert (K : map key (map snd (it _ m)) = map fst (it _ m)).
  { rewrite map_map. apply map_ext_in. intros [k x] H. cbn. symmetry. eapply F. eapply Permutation_in; [symmetry; exact P|exact H]. }
  split.
  - rewrite K. eapply Permutation_NoDup; [apply Permutation_map; exact P|exact N].
  - intros x H. apply in_map_iff in H as ([k y] & <- & H). eapply F. eapply Permutation_in; [symmetry; exact P|exact H].
  - intros x H. rewrite K. eapply Permutation_in; [apply Permutation_map; exact P|auto].
Qed.
Lemma once_incl {A} (key : A -> string) l l' out : once_per key l out -> incl l l' -> (forall x, In x l' -> In (key x) (map key l)) -> once_per key l' out.
Proof.
  intros [N F C] I K. split; [exact N|intros x H; auto|]. intros x H. apply K in H. apply in_map_iff in H as (y & <- & H). auto.
Qed.
(** with injective keys: exactly the elements, each once *)
Lemma once_exact {A} (key : A -> string) l out : once_per key l out -> (forall x y, In x l -> In y l -> key x = key y -> x = y) ->
  NoDup out /\ forall x, In x out <-> In x l.
Proof.
  intros [N F C] J. split; [eapply NoDup_map_inv; exact N|]. intros x. split; [apply F|]. intros H.
  pose proof (C x H) as K. apply in_map_iff in K as (y & E & Y). now rewrite (J x y H (F _ Y) (eq_sym E)).
Qed.
