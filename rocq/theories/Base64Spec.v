(** Base64 (RFC 4648, section 4), independently of Base64.v. *)
From Verif Require Import GoStr.

Definition sextet (c : ascii) (n : N) : Prop :=
  String.get (N.to_nat n) "ABCDEFGHIJKLMNOPQRSTUVWXYZabcdefghijklmnopqrstuvwxyz0123456789+/" = Some c.
Notation octet c := (N_of_ascii c).
(** three bytes are four characters; two or one at the end are padded.  [low]
    is what the last character has in bits that belong to no byte. *)
Inductive base64 (low_ok : N -> Prop) : string -> string -> Prop :=
| b6_nil : base64 low_ok "" ""
| b6_one : forall c1 c2 v1 v2 a low, sextet c1 v1 -> sextet c2 v2 -> (v1 * 64 + v2 = octet a * 16 + low)%N -> (low < 16)%N -> low_ok low ->
    base64 low_ok (String c1 (String c2 "==")) (String a "")
| b6_two : forall c1 c2 c3 v1 v2 v3 a b low, sextet c1 v1 -> sextet c2 v2 -> sextet c3 v3 -> ((v1 * 64 + v2) * 64 + v3 = (octet a * 256 + octet b) * 4 + low)%N -> (low < 4)%N -> low_ok low ->
    base64 low_ok (String c1 (String c2 (String c3 "="))) (String a (String b ""))
| b6_more : forall c1 c2 c3 c4 v1 v2 v3 v4 a b c s t, sextet c1 v1 -> sextet c2 v2 -> sextet c3 v3 -> sextet c4 v4 ->
    (((v1 * 64 + v2) * 64 + v3) * 64 + v4 = (octet a * 256 + octet b) * 256 + octet c)%N -> base64 low_ok s t ->
    base64 low_ok (String c1 (String c2 (String c3 (String c4 s)))) (String a (String b (String c t))).
(** line breaks anywhere *)
Inductive broken : string -> string -> Prop :=
| br_nil : broken "" ""
| br_break : forall c s t, c = "010"%char \/ c = "013"%char -> broken s t -> broken (String c s) t
| br_keep : forall c s t, c <> "010"%char -> c <> "013"%char -> broken s t -> broken (String c s) (String c t).
(** written: no breaks, no stray bits; read: both are let through *)
Definition base64_of (bytes text : string) : Prop := base64 (fun low => low = 0%N) text bytes.
Definition base64_read (text bytes : string) : Prop := exists t, broken text t /\ base64 (fun _ => True) t bytes.
