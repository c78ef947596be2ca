(** internal/configer/load.go, update.go *)
From Verif Require Import GoStr Types Path Api DbConfig.

(** load.go:16-33 *)
Record raw_db := mkRD { rd_url : string; rd_name : string; rd_type : string; rd_wd : string }.
Record raw_config := mkRC { rc_ignore : list string; rc_dbs : list raw_db }.
Record Config := mkCfg { cf_path : string; cf_ignore : list string; cf_dbs : list DBConfig }.
Definition empty_config : Config := mkCfg "" [] [].

(** load.go:35-48 inferDBType *)
Definition infer_type (r : raw_db) : string :=
  if negb (seqb (rd_type r) "") then rd_type r
  else if has_prefix (rd_url r) "file:/" then "dir"
  else if has_suffix (rd_url r) ".zip" then "zip"
  else "api".

Inductive db_cfg_err := BadURL | BadType (t : string).
(** load.go:50-76 toConfig *)
Definition to_config (parse_uri : string -> option URL) (r : raw_db) : db_cfg_err + DBConfig :=
  match parse_uri (rd_url r) with
  | None => inl BadURL
  | Some _ =>
      let t := infer_type r in
      if negb (seqb t "zip") && negb (seqb t "api") && negb (seqb t "dir") then inl (BadType t)
      else
        let c := mkDC (rd_name r) t (rd_url r) (rd_wd r) in
        inr (if seqb (dc_name c) "" then mkDC (identifier c) t (rd_url r) (rd_wd r) else c)
  end.
(** load.go:78-98 newConfig; also returned: the errors reported, in order *)
Fixpoint to_configs (parse_uri : string -> option URL) (l : list raw_db) : list DBConfig * list db_cfg_err :=
  match l with
  | [] => ([], [])
  | r :: l' =>
      let '(cs, es) := to_configs parse_uri l' in
      match to_config parse_uri r with
      | inl e => (cs, e :: es)
      | inr c => (c :: cs, es)
      end
  end.

(** os.ReadFile *)
Inductive fread := FOk (content : string) | FNotExist | FError.
(** load.go:143,149: whether the error is (wraps) os.ErrNotExist *)
Inductive cfg_err := CNotExist (path : string) | CUnreadable (path : string) | CYaml (path : string).

Section WithYaml.
Variable parse_uri : string -> option URL.
(** gopkg.in/yaml.v3 (None: error) *)
Variable dec_yaml : string -> option raw_config.
Variable enc_yaml : raw_config -> string.

(** load.go:133-153 load *)
Definition load_raw (fs : string -> fread) (path : string) : cfg_err + raw_config :=
  let p := clean path in
  match fs p with
  | FNotExist => inl (CNotExist p)
  | FError => inl (CUnreadable p)
  | FOk content => match dec_yaml content with None => inl (CYaml p) | Some raw => inr raw end
  end.
(** load.go:155-163 Load *)
Definition load_config (fs : string -> fread) (path : string) : cfg_err + (Config * list db_cfg_err) :=
  match load_raw fs path with
  | inl e => inl e
  | inr raw => let '(dbs, errs) := to_configs parse_uri (rc_dbs raw) in
               inr (mkCfg (clean path) (rc_ignore raw) dbs, errs)
  end.
(** load.go:101-131 Find *)
Definition find_config (fs : string -> fread) (dir : string) : cfg_err + (Config * list db_cfg_err) :=
  let configName := ".osv-detector" in
  match load_config fs (dir +s+ "/" +s+ configName +s+ ".yml") with
  | inr c => inr c
  | inl (CNotExist _) =>
      match load_config fs (dir +s+ "/" +s+ configName +s+ ".yaml") with
      | inr c => inr c
      | inl (CNotExist _) => inr (empty_config, [])
      | inl e => inl e
      end
  | inl e => inl e
  end.

Inductive upd_err := URead (e : cfg_err) | UOpen.
(** update.go:10-34 UpdateWithIgnores: the error, and the new content of the
    file at the path (the file is truncated, then written; an encoder error,
    like a crash, may leave any part of it).  [openable]: os.OpenFile works.
    Simplification: the file read at the cleaned path is the one written at the
    path itself (no symbolic links under ".." elements). *)
Definition update_with_ignores (fs : string -> fread) (openable : string -> bool) (path : string) (ignores : list string)
  : upd_err + string :=
  match load_raw fs path with
  | inl e => inl (URead e)
  | inr raw =>
      if negb (openable path) then inl UOpen
      else inr (enc_yaml (mkRC ignores (rc_dbs raw)))
  end.
End WithYaml.
