(** Two runs whose config files differ only in the IDs they ignore. *)
From Coq Require Import Permutation.
From Verif Require Import GoStr Types Osv OsvSpec MemDB Path ZipDB Configer Lockfile Report Main MemDBSpec ReportSpec MainSpec QuietSpec.

(** the same files, except that configs may ignore other IDs; [I] says how the
    IDs may differ *)
Definition reignored (dec : string -> option raw_config) (I : list string -> list string -> Prop) (fs fs' : string -> fread) : Prop :=
  forall p, fs p = fs' p
    \/ exists a b x y dbs, fs p = FOk a /\ fs' p = FOk b /\ dec a = Some (mkRC x dbs) /\ dec b = Some (mkRC y dbs) /\ I x y.
Definition any_ids (x y : list string) : Prop := True.

(** the same check, but for the IDs that its config ignores *)
Definition twin_check (O : Opts) (I : list string -> list string -> Prop) (ck ck' : checked) : Prop :=
  ck_cfg ck = ck_cfg ck' /\ ck_dbs ck = ck_dbs ck' /\ ck_raw ck = ck_raw ck'
  /\ (exists own own', ck_ignores ck = own ++ o_ignores O /\ ck_ignores ck' = own' ++ o_ignores O
        /\ (own = own' \/ I own own')
        /\ (o_no_ignores O = true \/ ck_cfg ck = "" -> own = [] /\ own' = []))
  /\ rp_lock (ck_report ck) = rp_lock (ck_report ck')
  /\ Forall2 (same_row (ck_ignores ck) (ck_ignores ck')) (rp_pkgs (ck_report ck)) (rp_pkgs (ck_report ck')).

(** the same event but for what follows from ignoring differently: the checks'
    reports, the results and the document with them, and the line that says how
    many IDs a config ignores *)
Inductive twin_ev (O : Opts) (I : list string -> list string -> Prop) : ev -> ev -> Prop :=
| tw_same : forall e, checks [e] = [] -> twin_ev O I e e
| tw_check : forall a b i i' w r r', twin_check O I (mkChk a b i w r) (mkChk a b i' w r') ->
    twin_ev O I (ECheck a b i w r) (ECheck a b i' w r')
| tw_result : forall t t', o_json O = false -> twin_ev O I (EOut KRes Stdout t) (EOut KRes Stdout t')
| tw_doc : forall t t', o_json O = true -> twin_ev O I (EOut KDoc Stdout t) (EOut KDoc Stdout t')
| tw_config : forall s path n n', o_no_ignores O = false ->
    twin_ev O I (EOut KText s ("  Using config at " +s+ path +s+ " (" +s+ n)) (EOut KText s ("  Using config at " +s+ path +s+ " (" +s+ n')).

(** the same run: every event is the same but for the above (in which order
    configs are rewritten is left open), and a file is the same afterwards,
    unless neither run wrote it *)
Record twin_run (O : Opts) (I : list string -> list string -> Prop) (fs fs' : string -> fread) (s s' : St) : Prop := {
  tr_checks : Forall2 (twin_check O I) (checks (s_trace s)) (checks (s_trace s'));
  tr_outs : Forall2 (twin_ev O I) (filter is_out (s_trace s)) (filter is_out (s_trace s'));
  tr_trace : exists tr, Forall2 (twin_ev O I) (s_trace s) tr /\ Permutation tr (s_trace s') /\ (o_update O = false -> tr = s_trace s');
  tr_files : forall p, s_files s p = s_files s' p \/ s_files s p = fs p /\ s_files s' p = fs' p;
  tr_cache : forall p, s_cache s p = s_cache s' p }.

(** the configs a run writes can be read back *)
Definition read_back (E : Env) (tr : list ev) : Prop :=
  forall p rc, In (EWriteConfig p (e_enc_yaml E rc)) tr -> e_dec_yaml E (e_enc_yaml E rc) = Some rc.
