(** Specification of the command line. *)
From Verif Require Import GoStr Types Main.
Local Open Scope Z_scope.

(** ** values *)
Definition truth (v : string) (b : bool) : Prop :=
  (b = true /\ In v ["1"; "t"; "T"; "TRUE"; "true"; "True"]) \/ (b = false /\ In v ["0"; "f"; "F"; "FALSE"; "false"; "False"]).
(** a digit and its value *)
Definition digit (c : ascii) (d : Z) : Prop :=
  (is_digit c = true /\ Z.of_N (N_of_ascii c) = 48 + d)
  \/ (is_lower c = true /\ Z.of_N (N_of_ascii c) = 87 + d) \/ (is_upper c = true /\ Z.of_N (N_of_ascii c) = 55 + d).
(** further digits, each of which may have an underscore before it *)
Inductive digits (base : Z) : Z -> string -> Z -> Prop :=
| dg_end : forall n, digits base n "" n
| dg_one : forall n c d s m, digit c d -> d < base -> digits base (n * base + d) s m -> digits base n (String c s) m
| dg_under : forall n c d s m, digit c d -> d < base -> digits base (n * base + d) s m -> digits base n (String "_" (String c s)) m.
(** integers as in Go programs *)
Inductive natural : string -> Z -> Prop :=
| na_dec : forall c d s m, digit c d -> 0 < d < 10 -> digits 10 d s m -> natural (String c s) m
| na_oct : forall s m, digits 8 0 s m -> natural (String "0" s) m
| na_prefix : forall p base s m, In (p, base) [("b", 2); ("B", 2); ("o", 8); ("O", 8); ("x", 16); ("X", 16)]%char ->
    s <> "" -> digits base 0 s m -> natural (String "0" (String p s)) m.
Inductive integer : string -> Z -> Prop :=
| it_plain : forall s n, natural s n -> n < 2 ^ 63 -> integer s n
| it_plus : forall s n, natural s n -> n < 2 ^ 63 -> integer (String "+" s) n
| it_minus : forall s n, natural s n -> n <= 2 ^ 63 -> integer (String "-" s) (- n).

(** ** flags *)
Definition switches : list string :=
  ["offline"; "no-config"; "update-config-ignores"; "no-config-ignores"; "no-config-databases"; "version";
   "list-ecosystems"; "list-packages"; "json"; "use-dbs"; "use-api"].
Inductive value := VBool (b : bool) | VText (s : string) | VInt (z : Z).
(** [takes n v x]: the text [v] given to the flag [n] means [x] *)
Inductive takes : string -> string -> value -> Prop :=
| tk_switch : forall n v b, In n switches -> truth v b -> takes n v (VBool b)
| tk_text : forall n v, In n ["parse-as"; "config"; "ignore"] -> takes n v (VText v)
| tk_int : forall v z, integer v z -> takes "batch-size" v (VInt z).
Definition known (n : string) : Prop := In n switches \/ In n ["parse-as"; "config"; "ignore"; "batch-size"].
(** [s] is -name, --name, -name=value or --name=value *)
Definition written (s name : string) (v : option string) : Prop :=
  exists dashes c t, (dashes = "-" \/ dashes = "--") /\ name = String c t /\ c <> "-"%char /\ has_char "=" name = false
    /\ s = dashes +s+ name +s+ match v with None => "" | Some x => "=" +s+ x end.
(** arguments that end the flags; and those that are no flag at all *)
Definition plain (s : string) : Prop := s = "" \/ s = "-" \/ exists c t, s = String c t /\ c <> "-"%char.
Definition malformed (s : string) : Prop := exists t, s = "---" +s+ t \/ s = "-=" +s+ t \/ s = "--=" +s+ t.

(** one flag and its value *)
Inductive gives : list string -> string * value -> list string -> Prop :=
| gv_switch : forall s n r, written s n None -> In n switches -> gives (s :: r) (n, VBool true) r
| gv_value : forall s n v x r, written s n (Some v) -> takes n v x -> gives (s :: r) (n, x) r
| gv_next : forall s n v x r, written s n None -> ~ In n switches -> takes n v x -> gives (s :: v :: r) (n, x) r.
(** the flags, then the remaining arguments *)
Inductive cmdline : list string -> list (string * value) -> list string -> Prop :=
| cm_none : cmdline [] [] []
| cm_plain : forall s r, plain s -> cmdline (s :: r) [] (s :: r)
| cm_dashes : forall r, cmdline ("--" :: r) [] r
| cm_flag : forall args f r l rest, gives args f r -> cmdline r l rest -> cmdline args (f :: l) rest.
(** command lines that are refused, with the exit code *)
Inductive refused : list string -> Z -> Prop :=
| rf_syntax : forall s r, malformed s -> refused (s :: r) 2
| rf_help : forall s n v r, written s n v -> n = "h" \/ n = "help" -> refused (s :: r) 0
| rf_unknown : forall s n v r, written s n v -> ~ known n -> n <> "h" -> n <> "help" -> refused (s :: r) 2
| rf_value : forall s n v r, written s n (Some v) -> known n -> (forall x, ~ takes n v x) -> refused (s :: r) 2
| rf_missing : forall s n, written s n None -> known n -> ~ In n switches -> refused [s] 2
| rf_next : forall s n v r, written s n None -> known n -> ~ In n switches -> (forall x, ~ takes n v x) -> refused (s :: v :: r) 2
| rf_later : forall args f r c, gives args f r -> refused r c -> refused args c.

(** ** what they amount to: of a flag given more than once the last counts, but
    --ignore accumulates *)
Definition last_set (n : string) (l : list (string * value)) : option value :=
  option_map snd (find (fun f => seqb (fst f) n) (rev l)).
Definition bool_of (n : string) (default : bool) (l : list (string * value)) : bool :=
  match last_set n l with Some (VBool b) => b | _ => default end.
Definition text_of (n : string) (l : list (string * value)) : string :=
  match last_set n l with Some (VText s) => s | _ => "" end.
Record amounts_to (env : string) (l : list (string * value)) (rest : list string) (O : Opts) : Prop := {
  at_offline : o_offline O = bool_of "offline" false l;
  at_parse_as : o_parse_as O = text_of "parse-as" l;
  at_config : o_config O = text_of "config" l;
  at_no_config : o_no_config O = bool_of "no-config" false l;
  at_update : o_update O = bool_of "update-config-ignores" false l;
  at_no_ignores : o_no_ignores O = bool_of "no-config-ignores" false l;
  at_no_dbs : o_no_dbs O = bool_of "no-config-databases" false l;
  at_version : o_version O = bool_of "version" false l;
  at_list_eco : o_list_eco O = bool_of "list-ecosystems" false l;
  at_list_pkgs : o_list_pkgs O = bool_of "list-packages" false l;
  at_json : o_json O = bool_of "json" false l;
  at_use_dbs : o_use_dbs O = bool_of "use-dbs" (negb (seqb env "true")) l;
  at_use_api : o_use_api O = bool_of "use-api" (seqb env "true") l;
  at_batch : o_batch O = match last_set "batch-size" l with Some (VInt z) => z | _ => 1000 end;
  at_ignores : o_ignores O = flat_map (fun f => match f with (n, VText v) => if seqb n "ignore" then [v] else [] | _ => [] end) l;
  at_args : o_args O = rest }.
