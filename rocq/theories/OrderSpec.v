(** When two results say the same. *)
From Verif Require Import GoStr Types LockIO.
(** both crash, both fail alike, or both report packages which agree under
    [key], however often each occurs and in whatever order *)
Inductive same_up_to {B} (key : Pkg -> B) : pres -> pres -> Prop :=
| su_crash : same_up_to key Panic Panic
| su_fail : forall f, same_up_to key (Ok (inl f)) (Ok (inl f))
| su_packages : forall ps qs, Permutation (map key ps) (map key qs) -> same_up_to key (Ok (inr ps)) (Ok (inr qs)).
Definition same_packages : pres -> pres -> Prop := same_up_to (fun p => p).
(** no reported version has an @ in it *)
Definition plain_result (r : pres) : Prop := forall ps p, r = Ok (inr ps) -> In p ps -> has_char "@" (p_version p) = false.
(** what [key] says of the reported packages is all there is to say *)
Definition no_clash (key : Pkg -> string) (r r' : pres) : Prop :=
  forall ps qs p q, r = Ok (inr ps) -> r' = Ok (inr qs) -> In p ps -> In q qs -> key p = key q -> p = q.
