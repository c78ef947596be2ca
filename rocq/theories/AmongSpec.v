(** Specification: what a run finds in one lockfile, whatever the other lockfiles
    it is given. *)
From Verif Require Import GoStr Types Osv OsvSpec MemDB MemDBSpec Path Api ZipDB ZipSpec DirDB DbConfig Configer Lockfile Report ReportSpec Main MainSpec EndSpec.

(** the same flags, with other paths *)
Definition with_args (O : Opts) (args : list string) : Opts :=
  mkOpts (o_offline O) (o_parse_as O) (o_config O) (o_no_config O) (o_update O) (o_no_ignores O) (o_no_dbs O) (o_version O)
    (o_list_eco O) (o_list_pkgs O) (o_json O) (o_use_dbs O) (o_use_api O) (o_batch O) (o_ignores O) args.

(** the world stands still: whichever copy of an archive a run gets, the entries
    are the same, and an API database answers the same for the same packages *)
Definition steady (E : Env) (O : Opts) (cache : files) : Prop :=
  (forall d e1 e2, archive E O cache d e1 -> archive E O cache d e2 -> e1 = e2)
  /\ (forall j k a b pkgs, api_ident a = api_ident b -> e_api E j a pkgs = e_api E k b pkgs).
(** the version library can handle the packages and the advisories of the
    databases in use *)
Definition comparable (E : Env) (O : Opts) (fs : string -> fread) (cache : files) : Prop :=
  forall l c d p o, uses E O fs l c d -> In p (lf_pkgs l) -> may_hold E O cache d o -> checkable (e_sem E) [o] p.
(** ecosystems are plain, or have a suffix after a name without a dash *)
Definition usual (eco : string) : Prop :=
  has_char ":" eco = false \/ exists base suf, eco = base +s+ ":" +s+ suf /\ has_char ":" base = false /\ has_char "-" base = false.
Definition usual_ecosystems (E : Env) (O : Opts) (fs : string -> fread) : Prop :=
  forall l c d p, uses E O fs l c d -> In p (lf_pkgs l) -> usual (p_eco p).

(** answers that differ at most in the order of the affected ranges' events, or
    both missing *)
Definition same_answer (a b : option (list (list OSV))) : Prop :=
  match a, b with
  | Some x, Some y => Forall2 (Forall2 osv_same) x y
  | None, None => True
  | _, _ => False
  end.
(** two checks of a lockfile: the same databases, in whatever order, each giving
    the same answer (or none); [ck_raw] has the answers given *)
Definition same_checks (a b : checked) : Prop :=
  ck_cfg a = ck_cfg b /\ ck_ignores a = ck_ignores b /\ rp_lock (ck_report a) = rp_lock (ck_report b)
  /\ exists x y z, ck_raw a = given x /\ ck_raw b = given y
    /\ List.length x = List.length (ck_dbs a) /\ List.length y = List.length (ck_dbs b)
    /\ Permutation (combine (ck_dbs b) y) z
    /\ Forall2 (fun p q => fst p = fst q /\ same_answer (snd p) (snd q)) (combine (ck_dbs a) x) z.
(** the same report *)
Definition same_row (a b : PkgVulns) : Prop :=
  pv_pkg a = pv_pkg b /\ Forall2 osv_same (pv_vulns a) (pv_vulns b) /\ Forall2 osv_same (pv_ignored a) (pv_ignored b).
(** whatever one lists, the other lists too, or something related *)
Definition covered (a b : PkgVulns) : Prop :=
  forall v, In v (listed a) -> exists w, In w (listed b) /\ alike v w.
Definition like_row (a b : PkgVulns) : Prop := pv_pkg a = pv_pkg b /\ covered a b /\ covered b a.
