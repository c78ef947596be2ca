(** Specification: the same command line with everything spelled out. *)
From Verif Require Import GoStr GoSort Types Path Lockfile Main MainSpec.

(** the same flags without --parse-as, and with other paths *)
Definition spelled (O : Opts) (args : list string) : Opts :=
  mkOpts (o_offline O) "" (o_config O) (o_no_config O) (o_update O) (o_no_ignores O) (o_no_dbs O) (o_version O)
    (o_list_eco O) (o_list_pkgs O) (o_json O) (o_use_dbs O) (o_use_api O) (o_batch O) (o_ignores O) args.
(** a path given with its parser: its own if it names one, else the one of --parse-as *)
Inductive explicit (global : string) (arg : string) : string -> Prop :=
| ex_own : forall parser path, means arg parser path -> parser <> "" -> explicit global arg (parser +s+ ":" +s+ path)
| ex_global : forall path, means arg "" path -> explicit global arg (global +s+ ":" +s+ path).
(** nothing is to be parsed as rows of CSV, which are taken from the command line itself *)
Definition no_rows (O : Opts) : Prop := o_parse_as O <> "csv-row" /\ forall arg path, In arg (o_args O) -> ~ means arg "csv-row" path.
