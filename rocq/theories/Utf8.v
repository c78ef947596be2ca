(** UTF-8 decoding as done by Go's [range] over a string (unicode/utf8
    DecodeRuneInString: an invalid sequence is one byte wide). *)
From Verif Require Import GoStr.

Definition byte_in (lo hi : N) (c : ascii) : bool := N.leb lo (N_of_ascii c) && N.leb (N_of_ascii c) hi.
Definition is_cont (c : ascii) : bool := byte_in 128 191 c.

(** number of bytes of the first rune of a non-empty string *)
Definition rune_len (s : string) : nat :=
  match s with
  | EmptyString => 0
  | String a s1 =>
      if byte_in 194 223 a then
        match s1 with String b _ => if is_cont b then 2 else 1 | _ => 1 end
      else if byte_in 224 239 a then
        match s1 with
        | String b (String c _) =>
            let lo := if N.eqb (N_of_ascii a) 224 then 160%N else 128%N in
            let hi := if N.eqb (N_of_ascii a) 237 then 159%N else 191%N in
            if byte_in lo hi b && is_cont c then 3 else 1
        | _ => 1
        end
      else if byte_in 240 244 a then
        match s1 with
        | String b (String c (String d _)) =>
            let lo := if N.eqb (N_of_ascii a) 240 then 144%N else 128%N in
            let hi := if N.eqb (N_of_ascii a) 244 then 143%N else 191%N in
            if byte_in lo hi b && is_cont c && is_cont d then 4 else 1
        | _ => 1
        end
      else 1
  end.

(** the runes of a string, each as the bytes it occupies *)
Fixpoint runes_fuel (fuel : nat) (s : string) : list string :=
  match fuel with
  | O => []
  | S f =>
      match s with
      | EmptyString => []
      | _ => str_take (rune_len s) s :: runes_fuel f (str_skip (rune_len s) s)
      end
  end.
Definition runes_of (s : string) : list string := runes_fuel (String.length s) s.

(** unicode.IsSpace of one rune *)
Definition is_space_rune (r : string) : bool :=
  match r with
  | String a EmptyString => is_space1 a
  | String a (String b EmptyString) => is_space2 a b
  | String a (String b (String c EmptyString)) => is_space3 a b c
  | _ => false
  end.
