(** Model of the Go string primitives used by the code base (package
    [strings], string slicing and comparison).  Go strings are byte sequences;
    Coq [string] (a sequence of 8-bit [ascii]) represents them exactly.
    These are standard-library functions, not functions of /repo; argument
    order follows Go.  Uses in /repo are cited where they are called. *)
From Coq Require Export String Ascii List Bool Arith ZArith NArith Lia Permutation.
Export ListNotations.
Global Open Scope string_scope.
Global Open Scope list_scope.
Infix "+s+" := String.append (at level 60, right associativity).

(** Result of Go code that may panic. *)
Inductive res (A : Type) : Type := Ok (a : A) | Panic.
Arguments Ok {A}. Arguments Panic {A}.

Definition rbind {A B} (m : res A) (f : A -> res B) : res B :=
  match m with Ok a => f a | Panic => Panic end.

(** [==] on strings *)
Definition seqb (a b : string) : bool := String.eqb a b.

(** byte-wise [<] on strings *)
Fixpoint str_ltb (a b : string) : bool :=
  match a, b with
  | _, EmptyString => false
  | EmptyString, String _ _ => true
  | String c a', String d b' =>
      let nc := N_of_ascii c in let nd := N_of_ascii d in
      if N.ltb nc nd then true else if N.ltb nd nc then false else str_ltb a' b'
  end.

(** remove a given prefix, if present *)
Fixpoint strip_prefix (p s : string) : option string :=
  match p with
  | EmptyString => Some s
  | String c p' =>
      match s with
      | EmptyString => None
      | String d s' => if Ascii.eqb c d then strip_prefix p' s' else None
      end
  end.

(** remove a given suffix, if present *)
Fixpoint strip_suffix (suf s : string) : option string :=
  if seqb s suf then Some EmptyString
  else match s with
       | EmptyString => None
       | String c s' => option_map (String c) (strip_suffix suf s')
       end.

(** strings.HasPrefix, strings.HasSuffix, strings.TrimPrefix,
    strings.TrimSuffix, strings.CutPrefix *)
Definition has_prefix (s p : string) : bool :=
  match strip_prefix p s with Some _ => true | None => false end.
Definition has_suffix (s suf : string) : bool :=
  match strip_suffix suf s with Some _ => true | None => false end.
Definition trim_prefix (s p : string) : string :=
  match strip_prefix p s with Some r => r | None => s end.
Definition trim_suffix (s suf : string) : string :=
  match strip_suffix suf s with Some r => r | None => s end.
Definition cut_prefix (s p : string) : string * bool :=
  match strip_prefix p s with Some r => (r, true) | None => (s, false) end.

(** split at the first occurrence of a separator *)
Fixpoint cut_at (sep s : string) : option (string * string) :=
  match strip_prefix sep s with
  | Some r => Some (EmptyString, r)
  | None =>
      match s with
      | EmptyString => None
      | String c s' =>
          match cut_at sep s' with
          | Some (b, a) => Some (String c b, a)
          | None => None
          end
      end
  end.

(** strings.Cut *)
Definition cut (s sep : string) : string * string * bool :=
  match cut_at sep s with Some (b, a) => (b, a, true) | None => (s, EmptyString, false) end.
Definition cut_before (s sep : string) : string := fst (fst (cut s sep)).
Definition cut_after (s sep : string) : string := snd (fst (cut s sep)).

(** strings.Contains *)
Definition contains (s sub : string) : bool :=
  match cut_at sub s with Some _ => true | None => false end.

(** does the byte occur in the string *)
Fixpoint has_char (c : ascii) (s : string) : bool :=
  match s with
  | EmptyString => false
  | String d s' => Ascii.eqb c d || has_char c s'
  end.

(** split at the last occurrence of a byte: Some (before, after) *)
Fixpoint cut_last (c : ascii) (s : string) : option (string * string) :=
  match s with
  | EmptyString => None
  | String d s' =>
      match cut_last c s' with
      | Some (b, a) => Some (String d b, a)
      | None => if Ascii.eqb c d then Some (EmptyString, s') else None
      end
  end.

(** strings.Split(s, sep) for a one-byte separator *)
Fixpoint split_char (c : ascii) (s : string) : list string :=
  match s with
  | EmptyString => [EmptyString]
  | String d s' =>
      if Ascii.eqb c d then EmptyString :: split_char c s'
      else match split_char c s' with
           | [] => [String d EmptyString]
           | h :: t => String d h :: t
           end
  end.

(** strings.Join *)
Fixpoint join (sep : string) (l : list string) : string :=
  match l with
  | [] => EmptyString
  | [x] => x
  | x :: l' => x +s+ sep +s+ join sep l'
  end.

Fixpoint str_rev_app (s acc : string) : string :=
  match s with EmptyString => acc | String c s' => str_rev_app s' (String c acc) end.
Definition str_rev (s : string) : string := str_rev_app s EmptyString.

(** s[n:] and s[:n] (callers establish the bounds) *)
Fixpoint str_skip (n : nat) (s : string) : string :=
  match n with
  | O => s
  | S n' => match s with EmptyString => EmptyString | String _ s' => str_skip n' s' end
  end.
Fixpoint str_take (n : nat) (s : string) : string :=
  match n with
  | O => EmptyString
  | S n' => match s with EmptyString => EmptyString | String c s' => String c (str_take n' s') end
  end.

Fixpoint str_forall (p : ascii -> bool) (s : string) : bool :=
  match s with EmptyString => true | String c s' => p c && str_forall p s' end.
Fixpoint str_map (f : ascii -> ascii) (s : string) : string :=
  match s with EmptyString => EmptyString | String c s' => String (f c) (str_map f s') end.

(** character classes *)
Definition in_range (lo hi : N) (c : ascii) : bool :=
  let n := N_of_ascii c in N.leb lo n && N.leb n hi.
Definition is_digit (c : ascii) : bool := in_range 48 57 c.
Definition is_upper (c : ascii) : bool := in_range 65 90 c.
Definition is_lower (c : ascii) : bool := in_range 97 122 c.
(** regexp [\w] (ASCII only in Go) *)
Definition is_word (c : ascii) : bool :=
  is_digit c || is_upper c || is_lower c || Ascii.eqb c "_".
(** regexp [\s] in Go: [\t\n\f\r ] *)
Definition is_re_space (c : ascii) : bool :=
  let n := N_of_ascii c in
  N.eqb n 9 || N.eqb n 10 || N.eqb n 12 || N.eqb n 13 || N.eqb n 32.

(** strings.ToLower.  Simplification: exact for ASCII strings only; bytes
    above 127 are left alone (Go maps non-ASCII letters through Unicode). *)
Definition lower_char (c : ascii) : ascii :=
  if is_upper c then ascii_of_N (N_of_ascii c + 32) else c.
Definition to_lower (s : string) : string := str_map lower_char s.

(** unicode.IsSpace on the UTF-8 encodings of length 1, 2 and 3:
    U+0009-000D, U+0020; U+0085, U+00A0; U+1680, U+2000-200A, U+2028, U+2029,
    U+202F, U+205F, U+3000. *)
Definition is_space1 (a : ascii) : bool :=
  let n := N_of_ascii a in (N.leb 9 n && N.leb n 13) || N.eqb n 32.
Definition is_space2 (a b : ascii) : bool :=
  N.eqb (N_of_ascii a) 194 && (N.eqb (N_of_ascii b) 133 || N.eqb (N_of_ascii b) 160).
Definition is_space3 (a b c : ascii) : bool :=
  let na := N_of_ascii a in let nb := N_of_ascii b in let nc := N_of_ascii c in
  (N.eqb na 225 && N.eqb nb 154 && N.eqb nc 128)
  || (N.eqb na 226 && N.eqb nb 128 &&
      ((N.leb 128 nc && N.leb nc 138) || N.eqb nc 168 || N.eqb nc 169 || N.eqb nc 175))
  || (N.eqb na 226 && N.eqb nb 129 && N.eqb nc 159)
  || (N.eqb na 227 && N.eqb nb 128 && N.eqb nc 128).

(** strings.TrimSpace: strip leading then trailing (Unicode) white space *)
Fixpoint trim_left (s : string) : string :=
  match s with
  | EmptyString => EmptyString
  | String a s1 =>
      if is_space1 a then trim_left s1 else
      match s1 with
      | EmptyString => s
      | String b s2 =>
          if is_space2 a b then trim_left s2 else
          match s2 with
          | EmptyString => s
          | String c s3 => if is_space3 a b c then trim_left s3 else s
          end
      end
  end.
(** the same on the reversed string (last byte first) *)
Fixpoint trim_left_rev (s : string) : string :=
  match s with
  | EmptyString => EmptyString
  | String a s1 =>
      if is_space1 a then trim_left_rev s1 else
      match s1 with
      | EmptyString => s
      | String b s2 =>
          if is_space2 b a then trim_left_rev s2 else
          match s2 with
          | EmptyString => s
          | String c s3 => if is_space3 c b a then trim_left_rev s3 else s
          end
      end
  end.
Definition trim_right (s : string) : string := str_rev (trim_left_rev (str_rev s)).
Definition trim_space (s : string) : string := trim_right (trim_left s).

(** strings.Trim(s, cutset) for a one-byte cutset *)
Fixpoint trim_left_char (c : ascii) (s : string) : string :=
  match s with
  | EmptyString => EmptyString
  | String d s' => if Ascii.eqb c d then trim_left_char c s' else s
  end.
Definition trim_char (c : ascii) (s : string) : string :=
  str_rev (trim_left_char c (str_rev (trim_left_char c s))).

(** strings.FieldsFunc(s, func(r) r == c): the maximal non-empty runs of bytes
    different from [c] *)
Definition fields_char (c : ascii) (s : string) : list string :=
  filter (fun f => negb (seqb f EmptyString)) (split_char c s).

(** strings.SplitN(s, sep, 3) for a one-byte separator *)
Definition split3 (c : ascii) (s : string) : list string :=
  match cut_at (String c EmptyString) s with
  | None => [s]
  | Some (a, r) =>
      match cut_at (String c EmptyString) r with
      | None => [a; r]
      | Some (b, r') => [a; b; r']
      end
  end.

(** slices.Contains on strings *)
Definition mem (x : string) (l : list string) : bool := existsb (seqb x) l.

(** fmt %d for natural numbers *)
Definition digit_char (n : N) : ascii := ascii_of_N (48 + n).
Fixpoint dec_fuel (fuel : nat) (n : N) (acc : string) : string :=
  match fuel with
  | O => acc
  | S f =>
      let acc' := String (digit_char (N.modulo n 10)) acc in
      if N.ltb n 10 then acc' else dec_fuel f (N.div n 10) acc'
  end.
Definition dec_of_N (n : N) : string := dec_fuel (S (N.size_nat n)) n EmptyString.
Definition dec_of_nat (n : nat) : string := dec_of_N (N.of_nat n).
