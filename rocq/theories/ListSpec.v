(** Small list specifications shared by several areas. *)
From Verif Require Import GoStr.

(** [first_of_each key seen l r]: [r] are the elements of [l], in order, whose
    key is not in [seen] and not the key of an earlier element of [l] *)
Inductive first_of_each {A K} (key : A -> K) : list K -> list A -> list A -> Prop :=
| fe_nil : forall seen, first_of_each key seen [] []
| fe_seen : forall seen a l r, In (key a) seen -> first_of_each key seen l r -> first_of_each key seen (a :: l) r
| fe_new : forall seen a l r, ~ In (key a) seen -> first_of_each key (key a :: seen) l r -> first_of_each key seen (a :: l) (a :: r).
