(** pkg/lockfile/csv.go, with the reader of encoding/csv it uses (default
    settings: comma, no comments, strict quotes, every record as long as the
    first).  Reading the input is assumed not to fail. *)
From Verif Require Import GoStr GoSort Types Lockfile.

(** ** encoding/csv *)
Definition LF : ascii := "010".
Definition CR : ascii := "013".
Definition DQ : ascii := """".

(** Reader.readLine: \r\n becomes \n, and one \r before the end of the input is
    dropped *)
Fixpoint csv_normalise (s : string) : string :=
  match s with
  | "" => ""
  | String c s' =>
      if Ascii.eqb c CR then
        match s' with
        | "" => ""
        | String d _ => if Ascii.eqb d LF then csv_normalise s' else String c (csv_normalise s')
        end
      else String c (csv_normalise s')
  end.

Inductive csv_err := BareQuote | BadQuote | FieldCount.

(** Reader.readRecord as a machine over the normalised text.  [cur] is the
    field read so far (reversed), [fs] the finished fields (reversed). *)
Inductive csv_mode := FieldStart | Unquoted | Quoted | AfterQuote.
Definition csv_field (cur : string) : string := str_rev cur.
Fixpoint csv_record (m : csv_mode) (cur : string) (fs : list string) (s : string)
  : csv_err + (list string * string) :=
  let done rest := inr (rev (csv_field cur :: fs), rest) in
  match s with
  | "" => match m with Quoted => inl BadQuote | _ => done "" end
  | String c s' =>
      match m with
      | FieldStart =>
          if Ascii.eqb c DQ then csv_record Quoted "" fs s'
          else if Ascii.eqb c "," then csv_record FieldStart "" (csv_field cur :: fs) s'
          else if Ascii.eqb c LF then done s'
          else csv_record Unquoted (String c "") fs s'
      | Unquoted =>
          if Ascii.eqb c DQ then inl BareQuote
          else if Ascii.eqb c "," then csv_record FieldStart "" (csv_field cur :: fs) s'
          else if Ascii.eqb c LF then done s'
          else csv_record Unquoted (String c cur) fs s'
      | Quoted =>
          if Ascii.eqb c DQ then csv_record AfterQuote cur fs s'
          else csv_record Quoted (String c cur) fs s'
      | AfterQuote =>
          if Ascii.eqb c DQ then csv_record Quoted (String DQ cur) fs s'
          else if Ascii.eqb c "," then csv_record FieldStart "" (csv_field cur :: fs) s'
          else if Ascii.eqb c LF then done s'
          else inl BadQuote
      end
  end.
(** Reader.readRecord skips empty lines *)
Fixpoint csv_skip (s : string) : string :=
  match s with String c s' => if Ascii.eqb c LF then csv_skip s' else s | "" => "" end.
(** Reader.Read: None is io.EOF; [expect] is FieldsPerRecord *)
Definition csv_read (expect : nat) (s : string) : option (csv_err + (list string * nat * string)) :=
  match csv_skip s with
  | "" => None
  | s1 =>
      match csv_record FieldStart "" [] s1 with
      | inl e => Some (inl e)
      | inr (rec, rest) =>
          let n := List.length rec in
          if Nat.ltb 0 expect then
            if Nat.eqb n expect then Some (inr (rec, expect, rest)) else Some (inl FieldCount)
          else Some (inr (rec, n, rest))
      end
  end.

(** ** csv.go *)
Inductive row_err := NotEnoughFields | MissingPackage | MissingCommit.
(** csv.go:17-52 fromCSVRecord *)
Definition from_csv_record (lines : list string) : row_err + Pkg :=
  match lines with
  | ecosystem :: compare_as :: name :: version :: _ =>
      let compare_as := if seqb compare_as "" then ecosystem else compare_as in
      if seqb ecosystem "" then
        if seqb version "" then inl MissingCommit
        else if seqb name "" then inl MissingPackage
        else inr (mkPkg name "" version ecosystem compare_as)
      else if seqb name "" then inl MissingPackage
      else inr (mkPkg name version "" ecosystem compare_as)
  | _ => inl NotEnoughFields
  end.

Inductive from_err := CsvErr (e : csv_err) | RowErr (row : nat) (e : row_err).
(** csv.go:60-76 the loop; [i] is the number of the row about to be read.  Every
    read consumes some of the input. *)
Fixpoint csv_loop (fuel i expect : nat) (s : string) (packages : list Pkg) : list Pkg * option from_err :=
  match fuel with
  | 0 => (packages, None)
  | S fuel' =>
      match csv_read expect s with
      | None => (packages, None)
      | Some (inl e) => (packages, Some (CsvErr e))
      | Some (inr (rec, expect', rest)) =>
          match from_csv_record rec with
          | inl e => (packages, Some (RowErr i e))
          | inr d => csv_loop fuel' (i + 1) expect' rest (packages ++ [d])
          end
      end
  end.
(** csv.go:54-87 fromCSV *)
Definition from_csv (S : Sorter) (input : string) : list Pkg * option from_err :=
  let s := csv_normalise input in
  match csv_loop (Datatypes.S (String.length s)) 1 0 s [] with
  | (ps, None) => (S _ pkg_less ps, None)
  | r => r
  end.
(** csv.go:89-97 FromCSVRows *)
Definition from_csv_rows (S : Sorter) (path parse_as : string) (rows : list string) : Lockfile * option from_err :=
  let '(ps, e) := from_csv S (join newline rows) in (mkLF path parse_as ps, e).
(** csv.go:99-117 FromCSVFile; [content] None: os.Open fails *)
Inductive csv_file_err := CannotOpen (path : string) | InFile (path : string) (e : from_err).
Definition from_csv_file (S : Sorter) (content : option string) (path parse_as : string) : Lockfile * option csv_file_err :=
  match content with
  | None => (empty_lockfile, Some (CannotOpen path))
  | Some text =>
      let '(ps, e) := from_csv S text in (mkLF path parse_as ps, option_map (InFile path) e)
  end.
