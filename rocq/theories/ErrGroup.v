(** golang.org/x/sync/errgroup.Group with a limit, as used by
    pkg/database/api-check.go:175-201 and api-fetch-all.go:10-30: task [i] sends
    one request, and on reply either returns an error or writes its result to
    its own slot.  A step relation over explicit states; the requests may be
    answered in any order with any of the outcomes [serve] allows. *)
From Verif Require Import GoStr.

Section Group.
Context {A E : Type}.
Variable n limit : nat.
(** the outcomes task [i] may have: an error, or a value *)
Variable serve : nat -> E + A -> Prop.

(** where a started goroutine is *)
Inductive phase := Started | Sent | Replied (r : E + A).

Record gstate := mkG {
  g_next : nat;                   (** tasks given to Go so far *)
  g_run : list (nat * phase);     (** running goroutines *)
  g_slots : list (option A);      (** the shared result slice; None is the zero value *)
  g_err : option E;               (** the group's error (errOnce) *)
  g_sent : list nat }.            (** requests made, in order *)

(** api-check.go:181, api-fetch-all.go:14 make(..., len) *)
Definition g_init : gstate := mkG 0 [] (repeat None n) None [].

Fixpoint set_slot (l : list (option A)) (i : nat) (a : A) : list (option A) :=
  match l, i with
  | [], _ => []
  | _ :: l', O => Some a :: l'
  | x :: l', S i' => x :: set_slot l' i' a
  end.

Inductive gstep : gstate -> gstate -> Prop :=
(** the loop calls Go, which waits for a free place (SetLimit) *)
| step_go : forall nx run sl er se,
    nx < n -> List.length run < limit ->
    gstep (mkG nx run sl er se) (mkG (S nx) (run ++ [(nx, Started)]) sl er se)
| step_send : forall nx l1 i l2 sl er se,
    gstep (mkG nx (l1 ++ (i, Started) :: l2) sl er se) (mkG nx (l1 ++ (i, Sent) :: l2) sl er (se ++ [i]))
| step_reply : forall nx l1 i l2 sl er se r,
    serve i r ->
    gstep (mkG nx (l1 ++ (i, Sent) :: l2) sl er se) (mkG nx (l1 ++ (i, Replied r) :: l2) sl er se)
| step_fail : forall nx l1 i l2 sl er se e,
    gstep (mkG nx (l1 ++ (i, Replied (inl e)) :: l2) sl er se)
          (mkG nx (l1 ++ l2) sl (match er with Some e0 => Some e0 | None => Some e end) se)
| step_store : forall nx l1 i l2 sl er se a,
    gstep (mkG nx (l1 ++ (i, Replied (inr a)) :: l2) sl er se)
          (mkG nx (l1 ++ l2) (set_slot sl i a) er se).

Inductive gsteps : nat -> gstate -> gstate -> Prop :=
| gs_nil : forall s, gsteps 0 s s
| gs_step : forall k s1 s2 s3, gsteps k s1 s2 -> gstep s2 s3 -> gsteps (S k) s1 s3.

(** Wait returns: every task was given to Go and every goroutine has finished *)
Definition g_done (s : gstate) : Prop := g_next s = n /\ g_run s = [].

End Group.
Arguments mkG {A E}. Arguments g_next {A E}. Arguments g_run {A E}. Arguments g_slots {A E}.
Arguments g_err {A E}. Arguments g_sent {A E}. Arguments g_init {A E}.
Arguments Started {A E}. Arguments Sent {A E}. Arguments Replied {A E}.
