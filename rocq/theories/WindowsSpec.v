(** Specification: arguments on Windows. *)
From Verif Require Import GoStr Types LockfileSpec Main MainSpec.

Definition slash (c : ascii) : Prop := c = "/"%char \/ c = "\"%char.
Definition letter (c : ascii) : Prop := let n := nat_of_ascii c in 65 <= n <= 90 \/ 97 <= n <= 122.
(** the contract of filepath.IsAbs on Windows: paths from the root of a drive are
    absolute; what is has a colon as second character or a slash as first *)
Record AbsOk (is_abs : string -> bool) : Prop := mkAbsOk {
  abs_drive : forall c sl rest, letter c -> slash sl -> is_abs (String c (String ":" (String sl rest))) = true;
  abs_only : forall s, is_abs s = true -> (exists c rest, s = String c (String ":" rest)) \/ exists sl rest, slash sl /\ s = String sl rest }.
(** names of parsers that cannot be mistaken for the start of a path *)
Definition distinct (parser : string) : Prop :=
  has_char ":" parser = false /\ String.length parser <> 1 /\ forall sl rest, slash sl -> parser <> String sl rest.
(** no file has a name that starts with a colon *)
Definition no_colon (path : string) : Prop := forall rest, path <> String ":" rest.
(** an argument is a path, on Windows, if absolute; otherwise as elsewhere *)
Definition means_on (windows : bool) (is_abs : string -> bool) (arg parser path : string) : Prop :=
  (windows = true /\ is_abs arg = true /\ parser = "" /\ path = arg) \/ ((windows = false \/ is_abs arg = false) /\ means arg parser path).
Inductive reads_on (windows : bool) (is_abs : string -> bool) (clean : string -> string) (find : string -> string -> list string) (global : string) :
  list string -> list (string * string) -> Prop :=
| ro_nil : reads_on windows is_abs clean find global [] []
| ro_arg : forall arg args parser path parse_as rest,
    means_on windows is_abs arg parser path -> parse_as = (if seqb parser "" then global else parser) -> (parser = "" \/ distinct parser) ->
    (forall p, In p (find path parse_as) -> no_colon (clean p)) -> reads_on windows is_abs clean find global args rest ->
    reads_on windows is_abs clean find global (arg :: args) (map (fun p => (parse_as, clean p)) (find path parse_as) ++ rest).
