(** Two runs that differ only in what they are told to ignore. *)
From Coq Require Import Permutation.
From Verif Require Import GoStr Types Osv OsvSpec MemDB Lockfile Report Main MemDBSpec ReportSpec MainSpec.

(** the same flags, but for --ignore and --no-config-ignores *)
Definition ignoring (no : bool) (ig : list string) (O : Opts) : Opts :=
  mkOpts (o_offline O) (o_parse_as O) (o_config O) (o_no_config O) (o_update O) no (o_no_dbs O) (o_version O)
    (o_list_eco O) (o_list_pkgs O) (o_json O) (o_use_dbs O) (o_use_api O) (o_batch O) ig (o_args O).

(** the second run ignores at least what the first does *)
Definition quieter (O O' : Opts) : Prop :=
  (o_no_ignores O' = true -> o_no_ignores O = true) /\ incl (o_ignores O) (o_ignores O').

(** one and the same list of advisories, no two about the same thing, divided by
    two lists of ignores *)
Definition same_row (ig ig' : list string) (row row' : PkgVulns) : Prop :=
  pv_pkg row = pv_pkg row'
  /\ exists k, ForallOrdPairs (fun a b => ~ related a b) k /\ divided ig k row /\ divided ig' k row'.

(** the same check: same config, databases and answers; the ignores are those of
    the config, unless they are skipped, and those of the flags *)
Definition same_check (O O' : Opts) (ck ck' : checked) : Prop :=
  ck_cfg ck = ck_cfg ck' /\ ck_dbs ck = ck_dbs ck' /\ ck_raw ck = ck_raw ck'
  /\ (exists own own', ck_ignores ck = own ++ o_ignores O /\ ck_ignores ck' = own' ++ o_ignores O'
        /\ (o_no_ignores O = o_no_ignores O' -> own = own')
        /\ (o_no_ignores O = true -> own = []) /\ (o_no_ignores O' = true -> own' = []))
  /\ rp_lock (ck_report ck) = rp_lock (ck_report ck')
  /\ Forall2 (same_row (ck_ignores ck) (ck_ignores ck')) (rp_pkgs (ck_report ck)) (rp_pkgs (ck_report ck')).

(** the same event but for what follows from ignoring differently: the checks'
    reports, the results and the document with them, and the line that says
    whether a config's ignores are skipped *)
Inductive like_ev (O O' : Opts) : ev -> ev -> Prop :=
| le_same : forall e, checks [e] = [] -> like_ev O O' e e
| le_check : forall a b i i' w r r', same_check O O' (mkChk a b i w r) (mkChk a b i' w r') ->
    like_ev O O' (ECheck a b i w r) (ECheck a b i' w r')
| le_result : forall t t', o_json O = false -> like_ev O O' (EOut KRes Stdout t) (EOut KRes Stdout t')
| le_doc : forall t t', o_json O = true -> like_ev O O' (EOut KDoc Stdout t) (EOut KDoc Stdout t')
| le_config : forall s path n n', o_no_ignores O <> o_no_ignores O' ->
    like_ev O O' (EOut KText s ("  Using config at " +s+ path +s+ " (" +s+ n)) (EOut KText s ("  Using config at " +s+ path +s+ " (" +s+ n')).

(** fewer advisories found, more ignored; none lost *)
Definition quieter_row (ig ig' : list string) (row row' : PkgVulns) : Prop :=
  pv_pkg row = pv_pkg row'
  /\ selects (fun v => ~ In (o_id v) ig') (pv_vulns row) (pv_vulns row')
  /\ selects (fun v => In (o_id v) ig) (pv_ignored row') (pv_ignored row)
  /\ (forall v, In v (pv_vulns row) -> In v (pv_vulns row') \/ In v (pv_ignored row'))
  /\ forall v, In v (pv_ignored row') -> In v (pv_vulns row) \/ In v (pv_ignored row).

(** the same to an observer who sees everything but in which order config files
    are rewritten *)
Definition is_out (e : ev) : bool := match e with EOut _ _ _ => true | _ => false end.
Record same_run (O O' : Opts) (s s' : St) : Prop := {
  sr_checks : Forall2 (same_check O O') (checks (s_trace s)) (checks (s_trace s'));
  sr_outs : Forall2 (like_ev O O') (filter is_out (s_trace s)) (filter is_out (s_trace s'));
  sr_trace : exists tr, Forall2 (like_ev O O') (s_trace s) tr /\ Permutation tr (s_trace s') /\ (o_update O = false -> tr = s_trace s');
  sr_files : forall p, s_files s p = s_files s' p;
  sr_cache : s_cache s = s_cache s' }.
