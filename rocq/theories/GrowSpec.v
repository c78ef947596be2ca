(** Two runs, the second with at least the lockfiles' packages and the
    advisories of the first (C84). *)
From Verif Require Import GoStr Types Osv OsvSpec MemDB MemDBSpec ZipDB DbConfig Configer Lockfile Report Main MainSpec EndSpec.

(** every lockfile checked against a database in the first run is checked
    against it in the second, with the same packages and maybe more, and what the
    database may hold in the first run it is bound to hold in the second.  The
    second run uses the same version library, on packages and advisories it can
    compare *)
Definition grown (E : Env) (O : Opts) (fs : string -> fread) (cache : files) (E' : Env) (O' : Opts) (fs' : string -> fread) (cache' : files) : Prop :=
  e_sem E' = e_sem E
  /\ forall l c d, uses E O fs l c d ->
       dc_type d <> "api"
       /\ (exists l' c', uses E' O' fs' l' c' d /\ lf_path l' = lf_path l /\ incl (lf_pkgs l) (lf_pkgs l'))
       /\ (forall o, may_hold E O cache d o -> must_hold E' O' cache' d o)
       /\ (forall o p, may_hold E O cache d o -> In p (lf_pkgs l) -> has_char ":" (p_eco p) = false /\ checkable (e_sem E) [o] p).
(** some advisory is reported for the package of the lockfile at the path: the
    given one, or one standing for it *)
Definition still_listed (tr : list ev) (path : string) (p : Pkg) (v : OSV) : Prop :=
  exists ck row r g, In ck (checks tr) /\ lf_path (rp_lock (ck_report ck)) = path /\ In row (rp_pkgs (ck_report ck)) /\ pv_pkg row = p
    /\ alike v r /\ (g = r \/ related g r) /\ In g (pv_vulns row ++ pv_ignored row).
