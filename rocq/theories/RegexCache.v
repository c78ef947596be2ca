(** internal/cachedregexp/regex.go *)
From Verif Require Import GoStr Types MemDB.

(** How far a call of MustCompile(exp) has got; a compiled expression is an
    object in memory, known by its address. *)
Inductive progress :=
| Called                       (* before cache.Load *)
| Missed                       (* Load found nothing *)
| Compiled (obj : nat)         (* regexp.MustCompile made a new object *)
| Returned (obj : nat)
| Panicked.                    (* regexp.MustCompile does not know the expression *)
(** the objects made so far with the expression each was compiled from, the
    cache (a sync.Map), and the calls made so far by all goroutines *)
Record world := mkWorld { w_objects : list string; w_cache : list (string * nat); w_calls : list (string * progress) }.
Definition at_start : world := mkWorld [] [] [].

(** What happens next: a goroutine calls MustCompile, or a call under way does
    its next atomic step. *)
Inductive action := Call (exp : string) | Go (call : nat).
Fixpoint update {A} (l : list A) (i : nat) (x : A) : list A :=
  match l, i with
  | [], _ => []
  | _ :: l', O => x :: l'
  | y :: l', S i' => y :: update l' i' x
  end.
Section WithRegexp.
(** regexp.MustCompile: the expressions it accepts *)
Variable valid : string -> bool.
(** regex.go:11-18 MustCompile; Load and LoadOrStore are atomic *)
Definition next (w : world) (i : nat) : world :=
  match nth_error (w_calls w) i with
  | None => w
  | Some (exp, p) =>
      let goes p := update (w_calls w) i (exp, p) in
      match p with
      | Called =>
          match map_get exp (w_cache w) with
          | Some obj => mkWorld (w_objects w) (w_cache w) (goes (Returned obj))
          | None => mkWorld (w_objects w) (w_cache w) (goes Missed)
          end
      | Missed =>
          if valid exp then mkWorld (w_objects w ++ [exp])%list (w_cache w) (goes (Compiled (List.length (w_objects w))))
          else mkWorld (w_objects w) (w_cache w) (goes Panicked)
      | Compiled obj =>
          match map_get exp (w_cache w) with
          | Some obj' => mkWorld (w_objects w) (w_cache w) (goes (Returned obj'))
          | None => mkWorld (w_objects w) (map_set exp obj (w_cache w)) (goes (Returned obj))
          end
      | Returned _ | Panicked => w
      end
  end.
Definition act (w : world) (a : action) : world :=
  match a with
  | Call exp => mkWorld (w_objects w) (w_cache w) (w_calls w ++ [(exp, Called)])%list
  | Go i => next w i
  end.
Definition run (w : world) (l : list action) : world := fold_left act l w.
End WithRegexp.
