(** Specification: what --no-config-ignores and --no-config-databases stand for. *)
From Verif Require Import GoStr GoSort Types Api DbConfig Configer Lockfile Main.

(** the same flags but for these two *)
Definition with_skips (O : Opts) (ignores dbs : bool) : Opts :=
  mkOpts (o_offline O) (o_parse_as O) (o_config O) (o_no_config O) (o_update O) ignores dbs (o_version O)
    (o_list_eco O) (o_list_pkgs O) (o_json O) (o_use_dbs O) (o_use_api O) (o_batch O) (o_ignores O) (o_args O).
(** a config that ignores nothing, or has no databases except invalid ones (of
    these only the error they give is left) *)
Definition invalid (parse_uri : string -> option URL) (r : raw_db) : bool :=
  match to_config parse_uri r with inl _ => true | inr _ => false end.
Definition clear (parse_uri : string -> option URL) (ignores dbs : bool) (c : raw_config) : raw_config :=
  mkRC (if ignores then [] else rc_ignore c) (if dbs then filter (invalid parse_uri) (rc_dbs c) else rc_dbs c).
(** the same world, in which every config is like that *)
Definition cleared (E : Env) (ignores dbs : bool) : Env :=
  mkEnv (e_world E) (e_sem E) (e_sort E) (e_iter E) (e_col E) (e_text E) (e_osv_json E) (e_stat E) (e_impl E) (e_csv E) (e_cache_path E)
    (fun text => option_map (clear (w_parse_uri (e_world E)) ignores dbs) (e_dec_yaml E text)) (e_enc_yaml E) (e_openable E) (e_api E) (e_version_line E).

(** the same step, except that the line about the config is put differently *)
Inductive alike (E : Env) (ignores : bool) : ev -> ev -> Prop :=
| al_same : forall e, alike E ignores e e
| al_config : forall st path, ignores = true ->
    alike E ignores
      (EOut KText st ("  Using config at " +s+ e_col E "magenta" path +s+ " (skipping any ignores)" +s+ newline))
      (EOut KText st ("  Using config at " +s+ e_col E "magenta" path +s+ " (" +s+ e_col E "yellow" "0 ignores" +s+ ")" +s+ newline)).
