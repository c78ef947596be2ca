(** C63: the cache of compiled expressions. *)
From Verif Require Import GoStr Types MemDB RegexCache RegexCacheProofs.
Local Open Scope list_scope.

(** however the calls and their steps interleave: what a call returns was
    compiled from its expression *)
Theorem C63_right : forall valid l i exp obj, nth_error (w_calls (run valid at_start l)) i = Some (exp, Returned obj) ->
  nth_error (w_objects (run valid at_start l)) obj = Some exp.
Proof. exact cache_right. Qed.
Print Assumptions C63_right.
(** all calls for one expression return one object *)
Theorem C63_same : forall valid l i j exp obj obj', nth_error (w_calls (run valid at_start l)) i = Some (exp, Returned obj) ->
  nth_error (w_calls (run valid at_start l)) j = Some (exp, Returned obj') -> obj = obj'.
Proof. exact cache_same. Qed.
Print Assumptions C63_same.
(** what was returned stays what it is *)
Theorem C63_stays : forall valid l l' i exp obj, nth_error (w_calls (run valid at_start l)) i = Some (exp, Returned obj) ->
  nth_error (w_calls (run valid at_start (l ++ l'))) i = Some (exp, Returned obj) /\ nth_error (w_objects (run valid at_start (l ++ l'))) obj = Some exp.
Proof. exact cache_stays. Qed.
Print Assumptions C63_stays.
(** no call waits for another: three steps of its own and it has returned, or
    panicked if its expression is no regular expression *)
Theorem C63_ends : forall valid l l' i exp p, nth_error (w_calls (run valid at_start l)) i = Some (exp, p) -> 3 <= steps_of i l' ->
  exists q, nth_error (w_calls (run valid at_start (l ++ l'))) i = Some (exp, q) /\ if valid exp then exists obj, q = Returned obj else q = Panicked.
Proof. exact cache_ends. Qed.
Print Assumptions C63_ends.
(** two calls for one expression compile it both; one object wins *)
Definition cx_valid (e : string) : bool := negb (seqb e "(").
Definition cx_run : list action := [Call "a"; Call "a"; Go 0; Call "b"; Go 1; Go 0; Go 2; Go 1; Go 1; Go 2; Go 0; Go 2; Call "("; Go 3; Go 3; Call "a"; Go 4].
Example C63_case : w_calls (run cx_valid at_start cx_run) = [("a", Returned 1); ("a", Returned 1); ("b", Returned 2); ("(", Panicked); ("a", Returned 1)]
  /\ w_objects (run cx_valid at_start cx_run) = ["a"; "a"; "b"].
Proof. vm_compute. auto. Qed.
