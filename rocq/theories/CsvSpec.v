(** Specification of CSV input: what a table of records stands for. *)
From Verif Require Import GoStr Types Csv LockfileSpec.

Definition cr : ascii := "013".
(** the records that stand for no package, and why *)
Inductive bad_record : list string -> row_err -> Prop :=
| br_short : forall r, List.length r < 4 -> bad_record r NotEnoughFields
| br_commit : forall cmp name more, bad_record ("" :: cmp :: name :: "" :: more) MissingCommit
| br_name : forall eco cmp v more, eco <> "" \/ v <> "" -> bad_record (eco :: cmp :: "" :: v :: more) MissingPackage.

(** a good table *)
Definition same_width (rs : list (list string)) : Prop := exists n, Forall (fun r => List.length r = n) rs.
Definition all_packages (rs : list (list string)) (ps : list Pkg) : Prop := same_width rs /\ Forall2 csv_package rs ps.
(** a table with a bad row: the packages before it, and what is wrong with it *)
Definition first_bad_row (rs : list (list string)) (ps : list Pkg) (e : from_err) : Prop :=
  exists good r rest, rs = good ++ r :: rest /\ all_packages good ps
    /\ ((~ same_width (good ++ [r]) /\ e = CsvErr FieldCount)
        \/ (same_width (good ++ [r]) /\ exists x, bad_record r x /\ e = RowErr (List.length good + 1) x)).

(** a text whose lines end with \r\n *)
Fixpoint crlf (s : string) : string :=
  match s with "" => "" | String c s' => if Ascii.eqb c nl then String cr (String nl (crlf s')) else String c (crlf s') end.
(** rows that need no quoting *)
Definition simple_row (r : string) : Prop := has_char quote r = false /\ has_char cr r = false /\ has_char nl r = false.
Definition nonblank (r : string) : bool := negb (seqb r "").
(** any table, written with every field quoted, is read back *)
Definition quoted (f : string) : string := String quote (doubled f +s+ String quote "").
Definition write_row (r : list string) : string := join "," (map quoted r).
Definition write_csv (rs : list (list string)) : string := join (String nl "") (map write_row rs).
