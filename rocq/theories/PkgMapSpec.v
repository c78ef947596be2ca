(** Lists that hold the elements of another once per key. *)
From Verif Require Import GoStr Types.
Record once_per {A} (key : A -> string) (l out : list A) : Prop := mkOnce {
  op_keys : NoDup (map key out);
  op_from : incl out l;
  op_all : forall x, In x l -> In (key x) (map key out) }.
(** one package for each key of a relation *)
Definition per_key (R : string -> Pkg -> Prop) (ps : list Pkg) : Prop :=
  exists m, Permutation (map snd m) ps /\ NoDup (map fst m) /\ (forall k p, In (k, p) m -> R k p) /\ (forall k p, R k p -> exists q, In (k, q) m).
