(** What number literals say. *)
From Verif Require Import GoStr.
Local Open Scope Z_scope.

Definition digit_is (c : ascii) (d : Z) : Prop := Z.of_N (N_of_ascii c) = 48 + d /\ 0 <= d <= 9.
Inductive decimal : string -> Z -> Prop :=
| dl_one : forall c d, digit_is c d -> decimal (String c "") d
| dl_more : forall s n c d, decimal s n -> digit_is c d -> decimal (s +s+ String c "") (10 * n + d).
(** ** whole numbers *)
Inductive whole : string -> Z -> Prop :=
| wh_plus : forall s n, decimal s n -> whole s n
| wh_minus : forall s n, decimal s n -> whole (String "-" s) (- n).
Definition int64 (z : Z) : Prop := - 2 ^ 63 <= z < 2 ^ 63.

(** ** numbers with a fraction or an exponent: m times 10 to the e *)
Inductive power : string -> Z -> Prop :=
| pw_none : power "" 0
| pw_plain : forall c s e, c = "e"%char \/ c = "E"%char -> decimal s e -> power (String c s) e
| pw_plus : forall c s e, c = "e"%char \/ c = "E"%char -> decimal s e -> power (String c (String "+" s)) e
| pw_minus : forall c s e, c = "e"%char \/ c = "E"%char -> decimal s e -> power (String c (String "-" s)) (- e).
Inductive magnitude : string -> Z -> Z -> Prop :=
| mg_whole : forall i x m e, decimal i m -> power x e -> magnitude (i +s+ x) m e
| mg_point : forall i f x a b e, decimal i a -> decimal f b -> power x e ->
    magnitude (i +s+ String "." (f +s+ x)) (a * 10 ^ Z.of_nat (String.length f) + b) (e - Z.of_nat (String.length f)).
(** m 10^e < 2^1024 - 2^970, from where on IEEE 754 rounds to infinity *)
Definition finite (m e : Z) : Prop := m * 10 ^ Z.max e 0 < (2 ^ 1024 - 2 ^ 970) * 10 ^ Z.max (- e) 0.
Definition float64 (lit : string) : Prop :=
  exists s m e, (lit = s \/ lit = String "-" s) /\ magnitude s m e /\ finite m e.
