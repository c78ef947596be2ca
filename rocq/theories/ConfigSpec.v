(** Specification of database configurations and config files. *)
From Verif Require Import GoStr Types Api DbConfig Configer.

Definition loadable_type (t : string) : Prop := t = "zip" \/ t = "api" \/ t = "dir".
(** the type a configured database gets *)
Definition type_of (r : raw_db) (t : string) : Prop :=
  (rd_type r <> "" /\ t = rd_type r)
  \/ (rd_type r = "" /\ (exists x, rd_url r = "file:/" +s+ x) /\ t = "dir")
  \/ (rd_type r = "" /\ (forall x, rd_url r <> "file:/" +s+ x) /\ (exists x, rd_url r = x +s+ ".zip") /\ t = "zip")
  \/ (rd_type r = "" /\ (forall x, rd_url r <> "file:/" +s+ x) /\ (forall x, rd_url r <> x +s+ ".zip") /\ t = "api").
(** an unnamed database is named type#url or type#url#directory *)
Definition named (name t url wd final : string) : Prop :=
  (name <> "" /\ final = name)
  \/ (name = "" /\ wd = "" /\ final = t +s+ "#" +s+ url)
  \/ (name = "" /\ wd <> "" /\ final = t +s+ "#" +s+ url +s+ "#" +s+ wd).
Definition accepted (parse_uri : string -> option URL) (r : raw_db) (c : DBConfig) : Prop :=
  parse_uri (rd_url r) <> None /\ type_of r (dc_type c) /\ loadable_type (dc_type c)
  /\ dc_url c = rd_url r /\ dc_wd c = rd_wd r /\ named (rd_name r) (dc_type c) (rd_url r) (rd_wd r) (dc_name c).
Definition rejected (parse_uri : string -> option URL) (r : raw_db) (e : db_cfg_err) : Prop :=
  (parse_uri (rd_url r) = None /\ e = BadURL)
  \/ (parse_uri (rd_url r) <> None /\ exists t, type_of r t /\ ~ loadable_type t /\ e = BadType t).
(** each entry is either kept or reported, in order *)
Inductive entries (parse_uri : string -> option URL) : list raw_db -> list DBConfig -> list db_cfg_err -> Prop :=
| en_nil : entries parse_uri [] [] []
| en_good : forall r c l cs es, accepted parse_uri r c -> entries parse_uri l cs es -> entries parse_uri (r :: l) (c :: cs) es
| en_bad : forall r e l cs es, rejected parse_uri r e -> entries parse_uri l cs es -> entries parse_uri (r :: l) cs (e :: es).

(** the config file at [p]: usable with contents [raw], missing, or broken *)
Definition usable (dec_yaml : string -> option raw_config) (f : fread) (raw : raw_config) : Prop :=
  exists s, f = FOk s /\ dec_yaml s = Some raw.
Definition broken (dec_yaml : string -> option raw_config) (f : fread) : Prop :=
  f = FError \/ exists s, f = FOk s /\ dec_yaml s = None.
(** the configuration read from the file at [p] *)
Definition config_from (parse_uri : string -> option URL) (p : string) (raw : raw_config) (c : Config) (errs : list db_cfg_err) : Prop :=
  cf_path c = p /\ cf_ignore c = rc_ignore raw /\ entries parse_uri (rc_dbs raw) (cf_dbs c) errs.
