(** encoding/json as used by /repo: json.Marshal's text for a value tree, and
    the grammar accepted by json.Unmarshal (RFC 8259; control characters in
    strings rejected, invalid UTF-8 and lone surrogates replaced by U+FFFD).
    Standard library, not a function of /repo.  Uses in /repo are cited where
    the functions are called. *)
From Verif Require Import GoStr Utf8.

Inductive json : Type :=
| JNull
| JBool (b : bool)
| JNum (lit : string)
| JStr (s : string)
| JArr (l : list json)
| JObj (l : list (string * json)).

Definition code (c : ascii) : N := N_of_ascii c.
Definition dq : ascii := """".
Definition bs : ascii := "\".

(** encoding/json/fold.go foldName, in lower case: object keys and names of
    fields are compared by the least rune of each rune's orbit under simple
    folding.  The names of fields are ASCII; besides the letters themselves, the
    long s (U+017F) folds to s and the Kelvin sign (U+212A) to k, and no other
    rune folds to an ASCII one. *)
Fixpoint fold_key (s : string) : string :=
  match s with
  | "" => ""
  | String c s1 =>
      match s1 with
      | String d s2 =>
          if Ascii.eqb c "197" && Ascii.eqb d "191" then String "s" (fold_key s2)
          else match s2 with
               | String e s3 => if Ascii.eqb c "226" && Ascii.eqb d "132" && Ascii.eqb e "170" then String "k" (fold_key s3)
                                else String (lower_char c) (fold_key s1)
               | "" => String (lower_char c) (fold_key s1)
               end
      | "" => String (lower_char c) ""
      end
  end.

(** ** printing *)
Definition hex_digit (n : N) : ascii := if N.ltb n 10 then ascii_of_N (48 + n) else ascii_of_N (87 + n).
Definition u00 (c : ascii) : string :=
  String bs (String "u" (String "0" (String "0" (String (hex_digit (N.div (code c) 16)) (String (hex_digit (N.modulo (code c) 16)) ""))))).

(** appendString (encoding/json/encode.go) with escapeHTML on one rune *)
Definition enc_byte (c : ascii) : string :=
  let n := code c in
  if N.leb 128 n then String bs "ufffd"
  else if Ascii.eqb c dq || Ascii.eqb c bs then String bs (String c "")
  else if N.eqb n 8 then String bs "b"
  else if N.eqb n 12 then String bs "f"
  else if N.eqb n 10 then String bs "n"
  else if N.eqb n 13 then String bs "r"
  else if N.eqb n 9 then String bs "t"
  else if N.ltb n 32 || Ascii.eqb c "<" || Ascii.eqb c ">" || Ascii.eqb c "&" then u00 c
  else String c "".
Definition enc_rune (r : string) : string :=
  match r with
  | String c EmptyString => enc_byte c
  | _ => if seqb r (String "226" (String "128" (String "168" ""))) then String bs "u2028"
         else if seqb r (String "226" (String "128" (String "169" ""))) then String bs "u2029"
         else r
  end.
Definition sconcat (l : list string) : string := fold_right String.append "" l.
Definition enc_str (s : string) : string := String dq (sconcat (map enc_rune (runes_of s)) +s+ String dq "").

Fixpoint print (j : json) : string :=
  match j with
  | JNull => "null"
  | JBool true => "true"
  | JBool false => "false"
  | JNum lit => lit
  | JStr s => enc_str s
  | JArr l => "[" +s+ join "," (map print l) +s+ "]"
  | JObj l => "{" +s+ join "," (map (fun kv => enc_str (fst kv) +s+ ":" +s+ print (snd kv)) l) +s+ "}"
  end.

(** ** parsing *)
Definition is_ws (c : ascii) : bool :=
  N.eqb (code c) 32 || N.eqb (code c) 9 || N.eqb (code c) 10 || N.eqb (code c) 13.
Fixpoint skip_ws (s : string) : string :=
  match s with String c s' => if is_ws c then skip_ws s' else s | _ => s end.

Definition hex_val (c : ascii) : option N :=
  let n := code c in
  if N.leb 48 n && N.leb n 57 then Some (n - 48)%N
  else if N.leb 97 n && N.leb n 102 then Some (n - 87)%N
  else if N.leb 65 n && N.leb n 70 then Some (n - 55)%N
  else None.
Definition hex4 (a b c d : ascii) : option N :=
  match hex_val a, hex_val b, hex_val c, hex_val d with
  | Some x, Some y, Some z, Some w => Some (((x * 16 + y) * 16 + z) * 16 + w)%N
  | _, _, _, _ => None
  end.
(** utf8.AppendRune for a scalar value *)
Definition utf8_enc (n : N) : string :=
  let b k := ascii_of_N k in
  if N.ltb n 128 then String (b n) ""
  else if N.ltb n 2048 then String (b (192 + N.div n 64)%N) (String (b (128 + N.modulo n 64)%N) "")
  else if N.ltb n 65536 then
    String (b (224 + N.div n 4096)%N) (String (b (128 + N.modulo (N.div n 64) 64)%N) (String (b (128 + N.modulo n 64)%N) ""))
  else
    String (b (240 + N.div n 262144)%N) (String (b (128 + N.modulo (N.div n 4096) 64)%N)
      (String (b (128 + N.modulo (N.div n 64) 64)%N) (String (b (128 + N.modulo n 64)%N) ""))).
Definition replacement : string := utf8_enc 65533.
Definition is_high (n : N) : bool := N.leb 55296 n && N.leb n 56319.
Definition is_low (n : N) : bool := N.leb 56320 n && N.leb n 57343.
Definition pair_val (h l : N) : N := (65536 + (h - 55296) * 1024 + (l - 56320))%N.
Definition simple_escape (c : ascii) : option ascii :=
  if Ascii.eqb c dq then Some dq
  else if Ascii.eqb c bs then Some bs
  else if Ascii.eqb c "/" then Some "/"%char
  else if Ascii.eqb c "b" then Some "008"%char
  else if Ascii.eqb c "f" then Some "012"%char
  else if Ascii.eqb c "n" then Some "010"%char
  else if Ascii.eqb c "r" then Some "013"%char
  else if Ascii.eqb c "t" then Some "009"%char
  else None.

Definition prepend (p : string) (r : option (string * string)) : option (string * string) :=
  match r with Some (v, rest) => Some (p +s+ v, rest) | None => None end.

(** the characters of a string literal after its opening quote, up to and
    including the closing one: unescaped bytes and the remaining input *)
Fixpoint unescape (s : string) : option (string * string) :=
  match s with
  | EmptyString => None
  | String c s1 =>
      if Ascii.eqb c dq then Some ("", s1)
      else if Ascii.eqb c bs then
        match s1 with
        | EmptyString => None
        | String e s2 =>
            if Ascii.eqb e "u" then
              match s2 with
              | String x1 (String x2 (String x3 (String x4 s3))) =>
                  match hex4 x1 x2 x3 x4 with
                  | None => None
                  | Some n =>
                      if is_high n then
                        match s3 with
                        | String k1 (String k2 (String y1 (String y2 (String y3 (String y4 s4))))) =>
                            if Ascii.eqb k1 bs && Ascii.eqb k2 "u" then
                              match hex4 y1 y2 y3 y4 with
                              | Some m => if is_low m then prepend (utf8_enc (pair_val n m)) (unescape s4)
                                          else prepend replacement (unescape s3)
                              | None => prepend replacement (unescape s3)
                              end
                            else prepend replacement (unescape s3)
                        | _ => prepend replacement (unescape s3)
                        end
                      else if is_low n then prepend replacement (unescape s3)
                      else prepend (utf8_enc n) (unescape s3)
                  end
              | _ => None
              end
            else
              match simple_escape e with
              | Some d => prepend (String d "") (unescape s2)
              | None => None
              end
        end
      else if N.ltb (code c) 32 then None
      else prepend (String c "") (unescape s1)
  end.

(** invalid UTF-8 is replaced byte by byte.  The decoder does this while
    unescaping; escapes produce whole characters, so doing it afterwards is
    the same. *)
Definition val_rune (r : string) : string :=
  match r with String c EmptyString => if N.leb 128 (code c) then replacement else r | _ => r end.
Definition to_valid (s : string) : string := sconcat (map val_rune (runes_of s)).

(** numbers: the maximal run of number characters, checked against the grammar *)
Definition is_numch (c : ascii) : bool :=
  is_digit c || Ascii.eqb c "-" || Ascii.eqb c "+" || Ascii.eqb c "." || Ascii.eqb c "e" || Ascii.eqb c "E".
Fixpoint span_num (s : string) : string * string :=
  match s with
  | String c s' => if is_numch c then let (a, b) := span_num s' in (String c a, b) else ("", s)
  | _ => ("", "")
  end.
Fixpoint span_digits (s : string) : string * string :=
  match s with
  | String c s' => if is_digit c then let (a, b) := span_digits s' in (String c a, b) else ("", s)
  | _ => ("", "")
  end.
Definition valid_exp (s : string) : bool :=
  match s with
  | EmptyString => true
  | String c s1 =>
      if Ascii.eqb c "e" || Ascii.eqb c "E" then
        let s2 := match s1 with String d r => if Ascii.eqb d "+" || Ascii.eqb d "-" then r else s1 | _ => s1 end in
        match s2 with EmptyString => false | _ => str_forall is_digit s2 end
      else false
  end.
Definition valid_frac (s : string) : bool :=
  match s with
  | String "."%char s1 => let (ds, r) := span_digits s1 in negb (seqb ds "") && valid_exp r
  | _ => valid_exp s
  end.
Definition valid_num (s : string) : bool :=
  let s1 := match s with String "-"%char r => r | _ => s end in
  match s1 with
  | String "0"%char r => valid_frac r
  | _ => let (ds, r) := span_digits s1 in negb (seqb ds "") && valid_frac r
  end.

Fixpoint pval (f : nat) (s : string) {struct f} : option (json * string) :=
  match f with
  | O => None
  | S f =>
      match skip_ws s with
      | EmptyString => None
      | String c s1 =>
          if Ascii.eqb c dq then
            match unescape s1 with Some (v, r) => Some (JStr (to_valid v), r) | None => None end
          else if Ascii.eqb c "[" then
            match skip_ws s1 with
            | String "]"%char r => Some (JArr [], r)
            | _ => match parr f s1 with Some (l, r) => Some (JArr l, r) | None => None end
            end
          else if Ascii.eqb c "{" then
            match skip_ws s1 with
            | String "}"%char r => Some (JObj [], r)
            | _ => match pmem f s1 with Some (l, r) => Some (JObj l, r) | None => None end
            end
          else if is_digit c || Ascii.eqb c "-" then
            let (n, r) := span_num (String c s1) in
            if valid_num n then Some (JNum n, r) else None
          else match strip_prefix "null" (String c s1) with
          | Some r => Some (JNull, r)
          | None => match strip_prefix "true" (String c s1) with
          | Some r => Some (JBool true, r)
          | None => match strip_prefix "false" (String c s1) with
          | Some r => Some (JBool false, r)
          | None => None
          end end end
      end
  end
with parr (f : nat) (s : string) {struct f} : option (list json * string) :=
  match f with
  | O => None
  | S f =>
      match pval f s with
      | None => None
      | Some (v, r) =>
          match skip_ws r with
          | String "]"%char r' => Some ([v], r')
          | String ","%char r' =>
              match parr f r' with Some (l, r'') => Some (v :: l, r'') | None => None end
          | _ => None
          end
      end
  end
with pmem (f : nat) (s : string) {struct f} : option (list (string * json) * string) :=
  match f with
  | O => None
  | S f =>
      match skip_ws s with
      | String c s1 =>
          if negb (Ascii.eqb c dq) then None else
          match unescape s1 with
          | None => None
          | Some (k, r) =>
              match skip_ws r with
              | String ":"%char r' =>
                  match pval f r' with
                  | None => None
                  | Some (v, r2) =>
                      match skip_ws r2 with
                      | String "}"%char r3 => Some ([(to_valid k, v)], r3)
                      | String ","%char r3 =>
                          match pmem f r3 with Some (l, r4) => Some ((to_valid k, v) :: l, r4) | None => None end
                      | _ => None
                      end
                  end
              | _ => None
              end
          end
      | _ => None
      end
  end.

(** the whole text is one value *)
Definition parse_text (s : string) : option json :=
  match pval (2 * String.length s + 2) s with
  | Some (v, r) => if seqb (skip_ws r) "" then Some v else None
  | None => None
  end.
(** encoding/json/scanner.go pushParseState: the limit maxNestingDepth.  (The
    scanner goes through the whole text before anything is decoded.) *)
Fixpoint depth (j : json) : N :=
  match j with
  | JArr l => N.succ (fold_right (fun v n => N.max (depth v) n) 0%N l)
  | JObj l => N.succ (fold_right (fun kv n => N.max (depth (snd kv)) n) 0%N l)
  | _ => 0%N
  end.
Definition parse (s : string) : option json :=
  match parse_text s with
  | Some v => if N.leb (depth v) 10000 then Some v else None
  | None => None
  end.
