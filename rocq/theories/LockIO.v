(** What the lockfile parsers share: reading files, failing, JSON values. *)
From Verif Require Import GoStr Types Json JsonDec MemDB GoMap Scan.

(** why a parser returns an error *)
Inductive lock_fail :=
| FRead (path : string)                 (* could not read / could not open *)
| FParse (path : string)                (* could not parse *)
| FVersion (path : string)              (* unsupported lockfile version *)
| FPath (path : string)                 (* invalid package path *)
| FScan (path : string)                 (* error while scanning *)
| FInclude (line : string) (f : lock_fail).
(** what a parser gives *)
Definition pres := res (lock_fail + list Pkg).
Definition packages_of (ps : list Pkg) : pres := Ok (inr ps).
Definition fails_with (f : lock_fail) : pres := Ok (inl f).

(** os.ReadFile *)
Definition read_file (files : string -> txt) (path : string) : option string :=
  match files path with Text content false => Some content | _ => None end.
(** the shape shared by the parsers which read and decode the whole file:
    read, decode, go on *)
Definition decoded {A} (files : string -> txt) (decode : string -> option A) (path : string) (k : A -> pres) : pres :=
  match read_file files path with
  | None => fails_with (FRead path)
  | Some content =>
      match decode content with
      | None => fails_with (FParse path)
      | Some a => k a
      end
  end.

(** json.Unmarshal into a pointer to a struct: a nil pointer (Some None) for
    the document null *)
Definition json_pointer {A} (dec : json -> option A) (content : string) : option (option A) :=
  match parse content with
  | None => None
  | Some JNull => Some None
  | Some j => option_map Some (dec j)
  end.
(** the use of a pointer: nil panics *)
Definition deref {A} (p : option A) (k : A -> pres) : pres :=
  match p with None => Panic | Some a => k a end.

(** json.Unmarshal into an int: a number without fraction and exponent that
    fits 64 bits *)
Definition dec_int (v : json) (old : Z) : option Z :=
  match v with
  | JNull => Some old
  | JNum lit =>
      let '(neg, ds) := match lit with String "-"%char r => (true, r) | _ => (false, lit) end in
      if negb (seqb ds "") && str_forall is_digit ds then
        let n := digits_val 0 ds in let z := if neg then Z.opp n else n in
        if Z.leb (-9223372036854775808) z && Z.leb z 9223372036854775807 then Some z else None
      else None
  | _ => None
  end.
(** strconv.ParseFloat of a JSON number: the digits as one number, and the power
    of ten they are to be multiplied with; and whether that is in range *)
Definition float_parts (lit : string) : Z * Z :=
  let s := match lit with String "-"%char r => r | _ => lit end in
  let '(i, s) := span_digits s in
  let '(f, s) := match s with String "."%char r => span_digits r | _ => ("", s) end in
  let e := match s with
           | String _ (String "-"%char r) => Z.opp (digits_val 0 r)
           | String _ (String "+"%char r) => digits_val 0 r
           | String _ r => digits_val 0 r
           | "" => 0%Z
           end in
  (digits_val 0 (i +s+ f), e - Z.of_nat (String.length f))%Z.
Definition float_ok (lit : string) : bool :=
  let '(m, e) := float_parts lit in
  valid_num lit && Z.ltb (m * 10 ^ Z.max e 0) ((2 ^ 1024 - 2 ^ 970) * 10 ^ Z.max (- e) 0).
(** json.Unmarshal into an any: numbers must fit a float64 *)
Fixpoint any_ok (v : json) : bool :=
  match v with
  | JNum lit => float_ok lit
  | JArr l => forallb any_ok l
  | JObj l => forallb (fun kv => any_ok (snd kv)) l
  | _ => true
  end.
(** into a map: a fresh value per key, later keys overwrite; nil (None) for null
    and for an absent field *)
Definition dec_map {A} (d : json -> option A) (v : json) : option (option (list (string * A))) :=
  match v with
  | JNull => Some None
  | JObj l =>
      option_map Some
        (fold_left (fun acc kv => match acc, d (snd kv) with
                                  | Some m, Some a => Some (map_set (fst kv) a m)
                                  | _, _ => None
                                  end) l (Some []))
  | _ => None
  end.
(** ranging over a nil map does nothing *)
Definition map_entries {A} (m : option (list (string * A))) : list (string * A) := match m with Some l => l | None => [] end.
