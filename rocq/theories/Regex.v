(** A small regular expression engine with Go's (RE2, Perl-like) leftmost-first
    semantics, used to run the expressions that appear in /repo.

    [ms r s] lists every way [r] can match at state [s], best first (the order
    in which a backtracking matcher would find them); Go reports the first.
    Matching is byte-wise: all literals in the expressions of /repo are ASCII
    and no ASCII byte occurs inside a multi-byte UTF-8 sequence, so byte-wise
    and rune-wise matching agree on them. *)
From Verif Require Import GoStr.

Inductive re : Type :=
| Eps                                   (* empty *)
| Cls (p : ascii -> bool)               (* one byte of a class *)
| Sq (a b : re)                         (* ab *)
| Alt (a b : re)                        (* a|b *)
| Star (greedy : bool) (a : re)         (* a* or a*? *)
| Cap (n : nat) (a : re)                (* capturing group number n *)
| Bol                                   (* ^ without (?m) *)
| Eol.                                  (* $ without (?m) *)

Record st := mkst { st_bot : bool;              (* at the beginning of the text *)
                    st_rest : string;           (* text not yet consumed *)
                    st_caps : list (nat * string) }.

Definition consumed (before after : string) : string :=
  str_take (String.length before - String.length after) before.

Definition shorter (s s' : st) : bool :=
  Nat.ltb (String.length (st_rest s')) (String.length (st_rest s)).

(** iterations that consume nothing are not repeated *)
Fixpoint star (greedy : bool) (f : st -> list st) (n : nat) (s : st) : list st :=
  match n with
  | O => [s]
  | S n' =>
      let more := flat_map (star greedy f n') (filter (shorter s) (f s)) in
      if greedy then more ++ [s] else s :: more
  end.

Fixpoint ms (r : re) (s : st) : list st :=
  match r with
  | Eps => [s]
  | Cls p =>
      match st_rest s with
      | EmptyString => []
      | String c t => if p c then [mkst false t (st_caps s)] else []
      end
  | Sq a b => flat_map (ms b) (ms a s)
  | Alt a b => ms a s ++ ms b s
  | Star g a => star g (ms a) (String.length (st_rest s)) s
  | Cap n a =>
      map (fun s' => mkst (st_bot s') (st_rest s')
                          ((n, consumed (st_rest s) (st_rest s')) :: st_caps s')) (ms a s)
  | Bol => if st_bot s then [s] else []
  | Eol => match st_rest s with EmptyString => [s] | _ => [] end
  end.

(** leftmost match: text before it, matched text and captures *)
Record rmatch := mkm { m_before : string; m_text : string; m_after : string;
                       m_caps : list (nat * string) }.

Fixpoint find_at (bot : bool) (r : re) (s : string) : option rmatch :=
  match ms r (mkst bot s []) with
  | m :: _ => Some (mkm EmptyString (consumed s (st_rest m)) (st_rest m) (st_caps m))
  | [] =>
      match s with
      | EmptyString => None
      | String c t =>
          match find_at false r t with
          | Some m => Some (mkm (String c (m_before m)) (m_text m) (m_after m) (m_caps m))
          | None => None
          end
      end
  end.

(** (re).FindStringSubmatch, (re).MatchString *)
Definition find (r : re) (s : string) : option rmatch := find_at true r s.
Definition re_match (r : re) (s : string) : bool :=
  match find r s with Some _ => true | None => false end.

(** text of group n in a match; a group that took no part is "" *)
Fixpoint cap_of (n : nat) (cs : list (nat * string)) : string :=
  match cs with
  | [] => EmptyString
  | (k, t) :: cs' => if Nat.eqb k n then t else cap_of n cs'
  end.
Definition group (m : rmatch) (n : nat) : string := cap_of n (m_caps m).

(** (re).ReplaceAllString with a literal replacement, for expressions that
    never match the empty string (all uses in /repo) *)
Fixpoint replace_fuel (fuel : nat) (bot : bool) (r : re) (repl s : string) : string :=
  match fuel with
  | O => s
  | S f =>
      match find_at bot r s with
      | None => s
      | Some m => m_before m +s+ repl +s+ replace_fuel f false r repl (m_after m)
      end
  end.
Definition replace_all (r : re) (repl s : string) : string :=
  replace_fuel (S (String.length s)) true r repl s.

(** (re).Split(s, -1), for expressions that never match the empty string *)
Fixpoint split_fuel (fuel : nat) (bot : bool) (r : re) (s : string) : list string :=
  match fuel with
  | O => [s]
  | S f =>
      match find_at bot r s with
      | None => [s]
      | Some m => m_before m :: split_fuel f false r (m_after m)
      end
  end.
Definition re_split (r : re) (s : string) : list string :=
  split_fuel (S (String.length s)) true r s.

(** derived forms *)
Definition Plus (g : bool) (a : re) : re := Sq a (Star g a).
Definition Opt (a : re) : re := Alt a Eps.                    (* a? *)
Definition Chr (c : ascii) : re := Cls (Ascii.eqb c).
Fixpoint Lit (s : string) : re :=
  match s with
  | EmptyString => Eps
  | String c EmptyString => Chr c
  | String c s' => Sq (Chr c) (Lit s')
  end.
Fixpoint Seqs (l : list re) : re :=
  match l with [] => Eps | [a] => a | a :: l' => Sq a (Seqs l') end.
Fixpoint Alts (l : list re) : re :=
  match l with [] => Cls (fun _ => false) | [a] => a | a :: l' => Alt a (Alts l') end.

Definition nl : ascii := "010".
Definition cr : ascii := "013".
(** [.] without (?s): anything but newline *)
Definition is_dot (c : ascii) : bool := negb (Ascii.eqb c nl).
Definition Dot : re := Cls is_dot.
Definition Word : re := Cls is_word.
