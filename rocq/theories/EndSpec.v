(** Specification of a run from end to end: from the files and servers it is
    given to the exit code. *)
From Verif Require Import GoStr Types Osv OsvSpec MemDB MemDBSpec Path Api ZipDB ZipSpec DirDB DirDBSpec DbConfig Configer Lockfile Report Main MainSpec.

(** in a run of these files the lockfile [l], with config [c], is to be checked
    against the database [d] *)
Definition uses (E : Env) (O : Opts) (fs : string -> fread) (l : Lockfile) (c : Config) (d : DBConfig) : Prop :=
  exists paths e mode rs, inputs E O paths e /\ mode_of E O fs mode /\ Forall2 (reads E O fs mode) (map as_arg paths) rs
    /\ In (l, c) (usables rs) /\ asks O (usables rs) mode l c d.

(** ** what a database holds *)
(** the entries of an archive a zip database may be given in a run *)
Definition archive (E : Env) (O : Opts) (cache : files) (d : DBConfig) (entries : list (string * option string)) : Prop :=
  exists before body date w rq, cached E O cache (e_cache_path E (dc_url d)) before
    /\ fetch_zip (dc_url d) (o_offline O) before (w_answer (e_world E)) = mkF (Ok (inr (body, date))) w rq
    /\ w_unzip (e_world E) body = Some entries.
Definition in_archive (E : Env) (d : DBConfig) (entries : list (string * option string)) (o : OSV) : Prop :=
  exists e, In e entries /\ ZipSpec.wanted (dc_wd d) (w_dec_osv (e_world E)) e o.
(** the advisory is in a file below the directory of a dir database *)
Definition in_dir (E : Env) (d : DBConfig) (o : OSV) : Prop :=
  exists u q, w_parse_uri (e_world E) (dc_url d) = Some u
    /\ let p := path_join [trim_prefix (u_path u) "/"; dc_wd d] in
       advisory_at (w_dec_osv (e_world E)) (path_base p) (w_tree (e_world E) p) q o.
(** it may hold the advisory; it is bound to *)
Inductive may_hold (E : Env) (O : Opts) (cache : files) (d : DBConfig) (o : OSV) : Prop :=
| mh_zip : forall entries, dc_type d = "zip" -> archive E O cache d entries -> in_archive E d entries o -> may_hold E O cache d o
| mh_dir : dc_type d = "dir" -> in_dir E d o -> may_hold E O cache d o.
Inductive must_hold (E : Env) (O : Opts) (cache : files) (d : DBConfig) (o : OSV) : Prop :=
| st_zip : dc_type d = "zip" -> (forall entries, archive E O cache d entries -> in_archive E d entries o) -> must_hold E O cache d o
| st_dir : dc_type d = "dir" -> in_dir E d o -> must_hold E O cache d o.

(** the same problem, named directly or through one other advisory *)
Definition alike (a b : OSV) : Prop := osv_same a b \/ related b a.
(** an API database returned the advisory for the package *)
Definition api_says (E : Env) (d : DBConfig) (l : Lockfile) (p : Pkg) (v : OSV) : Prop :=
  dc_type d = "api" /\ exists k a rs i, api_ident a = identifier d /\ e_api E k a (lf_pkgs l) = Ok (inr rs)
    /\ nth_error (lf_pkgs l) i = Some p /\ In v (nth i rs []).
(** why an advisory is reported: an API returned it, or a database may hold it
    and it affects the package *)
Definition grounds (E : Env) (O : Opts) (cache : files) (d : DBConfig) (l : Lockfile) (p : Pkg) (v : OSV) : Prop :=
  api_says E d l p v
  \/ exists o, osv_same o v /\ may_hold E O cache d o /\ o_withdrawn o = None /\ (checkable (e_sem E) [o] p -> osv_affects (e_sem E) o p).
(** no database in use has a # in its URL, so that identifiers name one
    database each *)
Definition distinct_names (E : Env) (O : Opts) (fs : string -> fread) : Prop :=
  forall l c d, uses E O fs l c d -> has_char "#" (dc_url d) = false.
(** the advisory [o], or one standing for it, is in the report of a check of
    the package [p] of [l] *)
Definition accounts (tr : list ev) (l : Lockfile) (p : Pkg) (ignores : list string) (o : OSV) : Prop :=
  exists ck row r g, In ck (checks tr) /\ rp_lock (ck_report ck) = l /\ In row (rp_pkgs (ck_report ck)) /\ pv_pkg row = p
    /\ alike o r /\ (g = r \/ related g r)
    /\ ((In g (pv_vulns row) /\ ~ In (o_id g) ignores) \/ (In g (pv_ignored row) /\ In (o_id g) ignores)).
