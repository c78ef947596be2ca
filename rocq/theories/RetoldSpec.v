(** Specification: runs that differ in how they tell what they do. *)
From Verif Require Import GoStr GoSort Types Osv Json Lockfile Report Main.

(** the same flags, with or without --json *)
Definition with_json (O : Opts) (json : bool) : Opts :=
  mkOpts (o_offline O) (o_parse_as O) (o_config O) (o_no_config O) (o_update O) (o_no_ignores O) (o_no_dbs O) (o_version O)
    (o_list_eco O) (o_list_pkgs O) json (o_use_dbs O) (o_use_api O) (o_batch O) (o_ignores O) (o_args O).
(** the same world, with other colours, texts of errors, ways to print an
    advisory and version *)
Definition retold (E : Env) (col : string -> string -> string) (text : any_err -> string) (osv_json : OSV -> json) (version : string) : Env :=
  mkEnv (e_world E) (e_sem E) (e_sort E) (e_iter E) col text osv_json (e_stat E) (e_impl E) (e_csv E) (e_cache_path E) (e_dec_yaml E) (e_enc_yaml E)
    (e_openable E) (e_api E) version.

(** a step as it is with --json: results are kept for the document, other text
    goes to stderr *)
Definition as_json (e : ev) : list ev :=
  match e with
  | EOut KRes _ _ => []
  | EOut KText _ t => [EOut KText Stderr t]
  | _ => [e]
  end.
(** what is done, and that there are errors, but not what is said *)
Definition deed (e : ev) : list ev :=
  match e with
  | EOut KErr _ _ => [EOut KErr Stderr ""]
  | EOut _ _ _ => []
  | _ => [e]
  end.
