(** sort.Slice / slices.Sort.  Go's sort is unstable and its result is
    unspecified when elements are equivalent, so the model never fixes one
    algorithm: definitions take a sorting function [S], and theorems hold for
    every [S] meeting the contract [SorterOk]. *)
From Coq Require Export Sorted.
From Verif Require Import GoStr GoStrFacts.

(** the sorted list, and the calls of [less] made meanwhile, given as the
    original positions of the two elements (a call can crash the program) *)
Record Sorter := mkSorter {
  sort_slice :> forall A : Type, (A -> A -> bool) -> list A -> list A;
  comparisons : forall A : Type, (A -> A -> bool) -> list A -> list (nat * nat)
}.

(** a strict weak order, as sort.Slice requires of [less] *)
Record SWO {A} (lt : A -> A -> bool) : Prop := {
  swo_irrefl : forall a, lt a a = false;
  swo_trans : forall a b c, lt a b = true -> lt b c = true -> lt a c = true;
  swo_negtrans : forall a b c, lt a b = false -> lt b c = false -> lt a c = false
}.

(** [less] behaves like [lt] on any two elements at distinct positions (Go's
    implementation never compares a position with itself, and some comparison
    functions in /repo are only well behaved on distinct positions) *)
Definition agrees {A} (less lt : A -> A -> bool) (l : list A) : Prop :=
  ForallOrdPairs (fun a b => less a b = lt a b /\ less b a = lt b a) l.

(** no element is strictly below an earlier one *)
Definition sorted_by {A} (lt : A -> A -> bool) (l : list A) : Prop :=
  StronglySorted (fun a b => lt b a = false) l.

Definition SorterOk (S : Sorter) : Prop :=
  forall A (less : A -> A -> bool) (l : list A),
    Permutation l (S A less l) /\
    forall lt, SWO lt -> agrees less lt l -> sorted_by lt (S A less l).

(** only different elements of the list are compared *)
Definition ComparesOk (S : Sorter) : Prop :=
  forall A (less : A -> A -> bool) (l : list A) i j, In (i, j) (comparisons S A less l) -> i <> j /\ i < List.length l /\ j < List.length l.

(** Insertion sort exactly as in Go's insertionSortLessFunc (used by sort.Slice
    for at most 12 elements): each element moves left while it is less than its
    left neighbour.  [ins] works on the reversed sorted prefix. *)
Fixpoint ins {A} (less : A -> A -> bool) (x : A) (rp : list A) : list A :=
  match rp with
  | [] => [x]
  | y :: rp' => if less x y then y :: ins less x rp' else x :: rp
  end.
Fixpoint ins_compares {A} (less : A -> A -> bool) (x : nat * A) (rp : list (nat * A)) : list (nat * nat) :=
  match rp with
  | [] => []
  | y :: rp' => (fst x, fst y) :: if less (snd x) (snd y) then ins_compares less x rp' else []
  end.
Definition isort_compares {A} (less : A -> A -> bool) (l : list A) : list (nat * nat) :=
  snd (fold_left (fun '(rp, cs) x => (ins (fun a b => less (snd a) (snd b)) x rp, cs ++ ins_compares less x rp))
         (combine (seq 0 (List.length l)) l) ([], [])).
Definition isort : Sorter :=
  mkSorter (fun A less l => rev (fold_left (fun rp x => ins less x rp) l [])) (fun A less l => isort_compares less l).
