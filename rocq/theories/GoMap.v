(** Go maps: association lists ([map_get]/[map_set] in MemDB.v).  The order in
    which [range] visits a map is unspecified: where /repo ranges over a map,
    the model applies an iteration order [it] to the entries, and theorems hold
    for every [it] that permutes them. *)
From Verif Require Import GoStr.

Definition Iter := forall A : Type, list A -> list A.
Definition IterOk (it : Iter) : Prop := forall A (l : list A), Permutation l (it A l).

(** map[K]struct{} used as a set: adding an element *)
Definition set_add (x : string) (s : list string) : list string :=
  if mem x s then s else s ++ [x].
