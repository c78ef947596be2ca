(** What a JSON text says (RFC 8259), and UTF-8 (RFC 3629), independently of
    the parser in Json.v. *)
From Verif Require Import GoStr Json.

(** ** UTF-8 *)
(** the bytes of a code point: 7 bits; or 5+6, 4+6+6, 3+6+6+6 bits, in as few
    bytes as will do *)
Definition byte (n : N) (c : ascii) : Prop := N_of_ascii c = n.
Inductive encodes (n : N) : string -> Prop :=
| en_1 : forall c, byte n c -> (n < 128)%N -> encodes n (String c "")
| en_2 : forall a b c d, byte (192 + a) c -> byte (128 + b) d -> (a < 32 -> b < 64 -> n = a * 64 + b -> 128 <= n -> encodes n (String c (String d "")))%N
| en_3 : forall a b x c d e, byte (224 + a) c -> byte (128 + b) d -> byte (128 + x) e ->
    (a < 16 -> b < 64 -> x < 64 -> n = (a * 64 + b) * 64 + x -> 2048 <= n -> encodes n (String c (String d (String e ""))))%N
| en_4 : forall a b x y c d e f, byte (240 + a) c -> byte (128 + b) d -> byte (128 + x) e -> byte (128 + y) f ->
    (a < 8 -> b < 64 -> x < 64 -> y < 64 -> n = ((a * 64 + b) * 64 + x) * 64 + y -> 65536 <= n -> encodes n (String c (String d (String e (String f "")))))%N.
(** surrogates, and what is beyond the last code point, are no characters *)
Definition surrogate (n : N) : Prop := (0xD800 <= n <= 0xDFFF)%N.
Definition scalar (n : N) : Prop := (n <= 0x10FFFF)%N /\ ~ surrogate n.
Definition character (c : string) : Prop := exists n, scalar n /\ encodes n c.
(** each byte that does not belong to a character is replaced by U+FFFD *)
Definition unknown : string := String "239" (String "191" (String "189" "")).
Inductive cleaned : string -> string -> Prop :=
| cl_nil : cleaned "" ""
| cl_char : forall c s v, character c -> cleaned s v -> cleaned (c +s+ s) (c +s+ v)
| cl_byte : forall b s v, (forall c s', character c -> String b s <> c +s+ s') -> cleaned s v -> cleaned (String b s) (unknown +s+ v).

(** ** string literals *)
Definition hexes (c : ascii) (n : N) : Prop :=
  String.get (N.to_nat n) "0123456789abcdef" = Some c \/ String.get (N.to_nat n) "0123456789ABCDEF" = Some c.
(** a backslash, u and four digits *)
Inductive escape_u : string -> N -> Prop :=
| eu : forall c1 c2 c3 c4 n1 n2 n3 n4, hexes c1 n1 -> hexes c2 n2 -> hexes c3 n3 -> hexes c4 n4 ->
    escape_u (String "\" (String "u" (String c1 (String c2 (String c3 (String c4 "")))))) (n1 * 4096 + n2 * 256 + n3 * 16 + n4)%N.
Definition leading (n : N) : Prop := (0xD800 <= n <= 0xDBFF)%N.
Definition trailing (n : N) : Prop := (0xDC00 <= n <= 0xDFFF)%N.
Inductive escape : ascii -> ascii -> Prop :=
| es_quote : escape """" """"
| es_backslash : escape "\" "\"
| es_slash : escape "/" "/"
| es_b : escape "b" "008"
| es_f : escape "f" "012"
| es_n : escape "n" "010"
| es_r : escape "r" "013"
| es_t : escape "t" "009".
(** what stands between the quotes, and the bytes it means; a surrogate that is
    not part of a pair means U+FFFD *)
Inductive chars : string -> string -> Prop :=
| ch_nil : chars "" ""
| ch_plain : forall c s v, c <> """"%char -> c <> "\"%char -> (32 <= N_of_ascii c)%N -> chars s v -> chars (String c s) (String c v)
| ch_escape : forall e c s v, escape e c -> chars s v -> chars (String "\" (String e s)) (String c v)
| ch_u : forall u n c s v, escape_u u n -> ~ surrogate n -> encodes n c -> chars s v -> chars (u +s+ s) (c +s+ v)
| ch_pair : forall u1 u2 n m c s v, escape_u u1 n -> escape_u u2 m -> leading n -> trailing m ->
    encodes (65536 + (n - 0xD800) * 1024 + (m - 0xDC00)) c -> chars s v -> chars (u1 +s+ u2 +s+ s) (c +s+ v)
| ch_trailing : forall u n s v, escape_u u n -> trailing n -> chars s v -> chars (u +s+ s) (unknown +s+ v)
| ch_leading : forall u n s v, escape_u u n -> leading n -> (forall u2 m s', escape_u u2 m -> trailing m -> s <> u2 +s+ s') ->
    chars s v -> chars (u +s+ s) (unknown +s+ v).
(** a literal and the string it means *)
Inductive literal : string -> string -> Prop :=
| li : forall s v w, chars s v -> cleaned v w -> literal (String """" (s +s+ String """" "")) w.

(** ** numbers *)
Definition digit (c : ascii) : Prop := (48 <= N_of_ascii c <= 57)%N.
Inductive digits : string -> Prop :=
| dg_one : forall c, digit c -> digits (String c "")
| dg_more : forall c s, digit c -> digits s -> digits (String c s).
Inductive integer : string -> Prop :=
| in_zero : integer "0"
| in_one : forall c, digit c -> c <> "0"%char -> integer (String c "")
| in_more : forall c s, digit c -> c <> "0"%char -> digits s -> integer (String c s).
Inductive fraction : string -> Prop :=
| fr_none : fraction ""
| fr_some : forall s, digits s -> fraction (String "." s).
Inductive exponent : string -> Prop :=
| ex_none : exponent ""
| ex_some : forall e s, e = "e"%char \/ e = "E"%char -> digits s -> exponent (String e s)
| ex_sign : forall e g s, e = "e"%char \/ e = "E"%char -> g = "+"%char \/ g = "-"%char -> digits s -> exponent (String e (String g s)).
Inductive number : string -> Prop :=
| nm_plus : forall i f e, integer i -> fraction f -> exponent e -> number (i +s+ f +s+ e)
| nm_minus : forall i f e, integer i -> fraction f -> exponent e -> number (String "-" (i +s+ f +s+ e)).

(** ** values *)
(** space, tab, line feed, carriage return *)
Inductive blank : string -> Prop :=
| bl_nil : blank ""
| bl_more : forall c s, c = " "%char \/ c = "009"%char \/ c = "010"%char \/ c = "013"%char -> blank s -> blank (String c s).
Inductive value : string -> json -> Prop :=
| vl_null : value "null" JNull
| vl_true : value "true" (JBool true)
| vl_false : value "false" (JBool false)
| vl_number : forall n, number n -> value n (JNum n)
| vl_string : forall s v, literal s v -> value s (JStr v)
| vl_no_elements : forall w, blank w -> value (String "[" (w +s+ "]")) (JArr [])
| vl_array : forall s l, elements s l -> value (String "[" (s +s+ "]")) (JArr l)
| vl_no_members : forall w, blank w -> value (String "{" (w +s+ "}")) (JObj [])
| vl_object : forall s l, members s l -> value (String "{" (s +s+ "}")) (JObj l)
with elements : string -> list json -> Prop :=
| el_last : forall w s v w', blank w -> value s v -> blank w' -> elements (w +s+ s +s+ w') [v]
| el_more : forall w s v w' t l, blank w -> value s v -> blank w' -> elements t l -> elements (w +s+ s +s+ w' +s+ String "," t) (v :: l)
with members : string -> list (string * json) -> Prop :=
| mb_last : forall w k key w1 w2 s v w', blank w -> literal k key -> blank w1 -> blank w2 -> value s v -> blank w' ->
    members (w +s+ k +s+ w1 +s+ String ":" (w2 +s+ s +s+ w')) [(key, v)]
| mb_more : forall w k key w1 w2 s v w' t l, blank w -> literal k key -> blank w1 -> blank w2 -> value s v -> blank w' -> members t l ->
    members (w +s+ k +s+ w1 +s+ String ":" (w2 +s+ s +s+ w' +s+ String "," t)) ((key, v) :: l).
Inductive json_text : string -> json -> Prop :=
| sy : forall w s w' v, blank w -> value s v -> blank w' -> json_text (w +s+ s +s+ w') v.
(** lists and objects nested at most so deep *)
Inductive within : N -> json -> Prop :=
| wi_null : forall n, within n JNull
| wi_bool : forall n b, within n (JBool b)
| wi_number : forall n t, within n (JNum t)
| wi_string : forall n t, within n (JStr t)
| wi_list : forall n l, Forall (within n) l -> within (N.succ n) (JArr l)
| wi_object : forall n l, Forall (fun kv => within n (snd kv)) l -> within (N.succ n) (JObj l).
(** what is read: a text nested not too deep *)
Definition json_doc (s : string) (v : json) : Prop := json_text s v /\ within 10000 v.

(** ** writing *)
Definition lower_hex (n : N) (c : ascii) : Prop := String.get (N.to_nat n) "0123456789abcdef" = Some c.
(** the characters that are not written as themselves *)
Inductive special : string -> string -> Prop :=
| sp_quote : special (String """" "") (String "\" (String """" ""))
| sp_backslash : special (String "\" "") (String "\" (String "\" ""))
| sp_b : special (String "008" "") "\b"
| sp_f : special (String "012" "") "\f"
| sp_n : special (String "010" "") "\n"
| sp_r : special (String "013" "") "\r"
| sp_t : special (String "009" "") "\t"
| sp_u : forall c n m x y, byte (n * 16 + m) c -> lower_hex n x -> lower_hex m y ->
    c = "<"%char \/ c = ">"%char \/ c = "&"%char \/ (N_of_ascii c < 32)%N /\ ~ In (N_of_ascii c) [8; 9; 10; 12; 13]%N ->
    special (String c "") ("\u00" +s+ String x (String y ""))
| sp_2028 : forall c, encodes 0x2028 c -> special c "\u2028"
| sp_2029 : forall c, encodes 0x2029 c -> special c "\u2029".
(** a string and what is written for it between the quotes *)
Inductive written : string -> string -> Prop :=
| wr_nil : written "" ""
| wr_special : forall c x s t, special c x -> written s t -> written (c +s+ s) (x +s+ t)
| wr_plain : forall c s t, character c -> (forall x, ~ special c x) -> written s t -> written (c +s+ s) (c +s+ t)
| wr_byte : forall b s t, (forall c s', character c -> String b s <> c +s+ s') -> written s t -> written (String b s) ("\ufffd" +s+ t).
Inductive quoted : string -> string -> Prop :=
| qt : forall s t, written s t -> quoted s (String """" (t +s+ String """" "")).
(** a value without blanks *)
Inductive compact : json -> string -> Prop :=
| cp_null : compact JNull "null"
| cp_true : compact (JBool true) "true"
| cp_false : compact (JBool false) "false"
| cp_number : forall n, compact (JNum n) n
| cp_string : forall s t, quoted s t -> compact (JStr s) t
| cp_no_elements : compact (JArr []) "[]"
| cp_array : forall l t, items l t -> compact (JArr l) (String "[" (t +s+ "]"))
| cp_no_members : compact (JObj []) "{}"
| cp_object : forall l t, entries l t -> compact (JObj l) (String "{" (t +s+ "}"))
with items : list json -> string -> Prop :=
| it_last : forall v t, compact v t -> items [v] t
| it_more : forall v t l t', compact v t -> items l t' -> items (v :: l) (t +s+ String "," t')
with entries : list (string * json) -> string -> Prop :=
| et_last : forall k q v t, quoted k q -> compact v t -> entries [(k, v)] (q +s+ String ":" t)
| et_more : forall k q v t l t', quoted k q -> compact v t -> entries l t' -> entries ((k, v) :: l) (q +s+ String ":" (t +s+ String "," t')).

(** ** keys of objects *)
(** [k] spells the name [f] (of lower case letters and anything that has no
    case): a letter may be upper case, and s and k may be the long s and the
    Kelvin sign *)
Definition lower_case (c d : ascii) : Prop := exists n, byte n c /\ byte (n + 32) d /\ (65 <= n <= 90)%N.
Inductive spells : string -> string -> Prop :=
| sl_end : spells "" ""
| sl_same : forall c k f, spells k f -> spells (String c k) (String c f)
| sl_upper : forall c d k f, lower_case c d -> spells k f -> spells (String c k) (String d f)
| sl_long_s : forall s k f, encodes 0x17F s -> spells k f -> spells (s +s+ k) (String "s" f)
| sl_kelvin : forall s k f, encodes 0x212A s -> spells k f -> spells (s +s+ k) (String "k" f).
(** such a name *)
Fixpoint field_name (f : string) : Prop :=
  match f with "" => True | String c f => (forall d, ~ lower_case c d) /\ (N_of_ascii c < 128)%N /\ field_name f end.
