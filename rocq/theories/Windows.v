(** The arguments of a run on Windows, where paths may have a colon after the
    letter of a drive.  [Main.v] has the other platforms.  Given as parameters:
    filepath.IsAbs and filepath.Clean of that platform, and which lockfiles are
    found at a path. *)
From Verif Require Import GoStr GoSort Types Path Lockfile Main.

(** main.go:408-420 parseLockfilePathWithParseAs *)
Definition split_on (windows : bool) (is_abs : string -> bool) (s : string) : string * string :=
  if (windows && is_abs s)%bool then ("", s) else split_parse_as s.
(** main.go:278-306 findAllLockfiles, without the errors *)
Definition list_on (windows : bool) (is_abs : string -> bool) (clean : string -> string) (find : string -> string -> list string)
    (global : string) (args : list string) : list string :=
  if seqb global parse_as_csv_row then [parse_as_csv_row +s+ ":-"]
  else flat_map (fun arg =>
    let '(a, path) := split_on windows is_abs arg in
    let parse_as := if seqb a "" then global else a in
    map (fun q => parse_as +s+ ":" +s+ clean q) (find path parse_as)) args.
(** main.go:308-309 and 432-433: the parser and path of each *)
Definition read_on (windows : bool) (is_abs : string -> bool) (listed : list string) : list (string * string) :=
  map (split_on windows is_abs) listed.
(** main.go:237-276 findLockfiles as in [Main.v] *)
Definition found_in (E : Env) (path parse_as : string) : list string :=
  e_sort E string str_ltb
    match e_stat E path with
    | KFile => [path]
    | KDir entries => dir_lockfiles path parse_as entries
    | _ => []
    end.
