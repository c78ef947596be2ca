(** Specification of when a run ends in a crash (a Go panic) instead of an exit
    code. *)
From Verif Require Import Scan Parsers ParserSpec.
From Verif Require Import GoStr Types Osv OsvSpec MemDB Path Api ZipDB DbConfig Configer Lockfile Json JsonSpec Main MainSpec EndSpec ApiRunSpec.

(** the file at a cache path is of no use: missing, or without any value but null *)
Definition useless (before : option string) : Prop :=
  match before with None => True | Some b => forall j, json_doc b j -> j = JNull end.
(** asked without conditions, the server answers that nothing changed *)
Definition says_unchanged (E : Env) (url : string) : Prop :=
  exists etag date body, w_answer (e_world E) (mkReq url None) = ZResp 304 etag date body.
(** an entry of the advisory is about the package, and a range of it cannot be
    compared with the version of the package, or its events not with each other *)
Definition incomparable (sem : Semantic) (o : OSV) (p : Pkg) : Prop :=
  exists a r, In a (o_affected o) /\ In r (a_ranges a)
    /\ same_ecosystem (op_eco (a_pkg a)) (p_eco p) /\ match_name (a_pkg a) (p_name p) /\ crash_range sem p r.

(** [breaks f path]: the parser [f] crashes on the file at [path] *)
Inductive crash_reason (E : Env) (O : Opts) (fs : string -> fread) (cache : files) (breaks : ParserFn -> string -> Prop) : Prop :=
(* a parser crashes on a lockfile it is given *)
| cr_lockfile : forall l e parse_as path f parsed_as, inputs E O l e -> In (parse_as, path) l ->
    find_parser path parse_as = (Some f, parsed_as) -> breaks f path -> crash_reason E O fs cache breaks
(* the server of a zip database says unchanged though nothing is cached *)
| cr_unchanged : forall l c d before, checking O -> uses E O fs l c d -> dc_type d = "zip" -> o_offline O = false ->
    cached E O cache (e_cache_path E (dc_url d)) before -> useless before -> says_unchanged E (dc_url d) -> crash_reason E O fs cache breaks
(* a version of a package, or of an advisory about it, means nothing *)
| cr_version : forall l c d p o, checking O -> uses E O fs l c d -> In p (lf_pkgs l) -> may_hold E O cache d o -> o_withdrawn o = None ->
    incomparable (e_sem E) o p -> crash_reason E O fs cache breaks.
Definition crashes_on (E : Env) (f : ParserFn) (path : string) : Prop := e_impl E f path = Panic.
(** the check of an API crashes, or gives fewer results than packages *)
Definition api_crash (E : Env) (O : Opts) (fs : string -> fread) : Prop :=
  exists l c d a k, checking O /\ uses E O fs l c d /\ dc_type d = "api" /\ api_of E O d a /\ (1 <= o_batch O)%Z
    /\ (e_api E k a (lf_pkgs l) = Panic
        \/ exists rs, e_api E k a (lf_pkgs l) = Ok (inr rs) /\ List.length rs < List.length (lf_pkgs l)).

(** the config that a lockfile uses can be read *)
Definition config_found (E : Env) (O : Opts) (fs : string -> fread) (path : string) : Prop :=
  o_no_config O = true
  \/ o_config O <> "" /\ (exists c, load_config (w_parse_uri (e_world E)) (e_dec_yaml E) fs (o_config O) = inr c)
  \/ o_config O = "" /\ (exists c, find_config (w_parse_uri (e_world E)) (e_dec_yaml E) fs (path_dir path) = inr c).
(** no other URL is cached in the same file *)
Definition own_cache (E : Env) (url : string) : Prop := forall u, e_cache_path E u = e_cache_path E url -> u = url.

(** lockfiles are read by the parsers of Parsers.v, which may follow as many
    files as there are *)
Definition parses_bytes (E : Env) (D : Decoders) (files : string -> txt) : Prop :=
  exists depth text L, e_impl E = impl D (e_iter E) files depth text
    /\ (forall p, files p <> Gone -> In p L) /\ List.length L + 2 <= depth.

(** the first entry of the advisory about the package does not list its version,
    and starts with a range that cannot be compared with it *)
Definition trips (sem : Semantic) (o : OSV) (p : Pkg) : Prop :=
  exists before a after r rs, o_affected o = before ++ a :: after
    /\ (forall b, In b before -> ~ (same_ecosystem (op_eco (a_pkg b)) (p_eco p) /\ match_name (a_pkg b) (p_name p)))
    /\ same_ecosystem (op_eco (a_pkg a)) (p_eco p) /\ match_name (a_pkg a) (p_name p)
    /\ ~ In (p_version p) (a_versions a) /\ a_ranges a = r :: rs /\ version_typed r /\ r_events r <> []
    /\ sem_ok sem (p_cmp p) (p_version p) = false.
