(** Specification of what a run touches: the requests it makes, the files it
    looks for and those it changes. *)
From Verif Require Import GoStr Types Path Api ZipDB DbConfig Configer Lockfile Report Main MainSpec ApiRunSpec.

Section Touch.
Variable E : Env.
Variable O : Opts.
Variable fs : string -> fread.
Variable cache : files.

(** a lockfile the run was pointed at *)
Definition given_lock (l : Lockfile) : Prop :=
  exists qs e q, inputs E O qs e /\ In q qs /\ parse_lockfile E O (as_arg q) = Ok (l, None).
(** the paths at which a config is looked for *)
Inductive config_place : string -> Prop :=
| cp_flag : o_no_config O = false -> o_config O <> "" -> config_place (o_config O)
| cp_beside : forall qs e q ext, o_no_config O = false -> o_config O = "" -> inputs E O qs e -> In q qs -> ext = ".yml" \/ ext = ".yaml" ->
    config_place (path_dir (snd q) +s+ "/" +s+ ".osv-detector" +s+ ext).
(** a database that a flag or a config asks for *)
Inductive asked_for (d : DBConfig) : Prop :=
| af_api : o_use_api O = true -> d = api_config -> asked_for d
| af_ecosystem : forall l p, o_use_dbs O = true -> given_lock l -> In p (lf_pkgs l) -> p_eco p <> "" -> d = ecosystem_config (p_eco p) -> asked_for d
| af_config : forall path c errs, o_no_dbs O = false -> config_place path ->
    load_config (w_parse_uri (e_world E)) (e_dec_yaml E) fs path = inr (c, errs) -> In d (cf_dbs c) -> asked_for d.
(** what a cache file lets a request ask: whether the archive is still current *)
Definition condition (before : option string) : option (string * string) :=
  match before with
  | Some b => match fst (dec_cache b) with Some c => Some (c_etag c, c_date c) | None => None end
  | None => None
  end.

(** the steps a run may take *)
Inductive allowed : ev -> Prop :=
| al_output : forall k s t, allowed (EOut k s t)
| al_read : forall p, checking O -> config_place p -> allowed (EReadConfig (clean p))
| al_load : forall d, checking O -> asked_for d -> allowed (ELoad d)
| al_failed : forall d e, checking O -> asked_for d -> allowed (ELoadFailed d e)
| al_archive : forall d before, checking O -> o_offline O = false -> asked_for d -> dc_type d = "zip" ->
    cached E O cache (e_cache_path E (dc_url d)) before -> allowed (EZip (mkReq (dc_url d) (condition before)))
| al_api : forall d a l, checking O -> o_offline O = false -> asked_for d -> dc_type d = "api" -> api_of E O d a -> given_lock l ->
    allowed (EApi a (lf_pkgs l))
| al_check : forall c ds i raw l rows, checking O -> given_lock l -> allowed (ECheck c ds i raw (mkRep l rows))
(* only the ignores of a config change *)
| al_write : forall p raw ids, checking O -> o_update O = true -> config_place p -> load_raw (e_dec_yaml E) fs p = inr raw ->
    allowed (EWriteConfig (clean p) (e_enc_yaml E (mkRC ids (rc_dbs raw)))).

Definition requests (tr : list ev) : list zreq := flat_map (fun e => match e with EZip q => [q] | _ => [] end) tr.
End Touch.
