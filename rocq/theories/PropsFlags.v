(** Property theorems about the command line (C69). *)
From Verif Require Import GoStr GoStrFacts GoSort GoMap Types Main MainSpec RunFacts RunEnd ListProofs MainExamples Flags FlagsSpec FlagsProofs.
Local Open Scope Z_scope.

(** C69: a command line is accepted iff it is flags with values, then an end, then
    arguments; and the options are what those flags amount to *)
Theorem C69_accepted : forall env args P,
  parse_flags (default_opts env) args = inr P <-> exists l rest, cmdline args l rest /\ amounts_to env l rest P.
Proof. exact parse_ok. Qed.
(** it is refused otherwise: with code 0 for -h and -help, else 2 *)
Theorem C69_refused : forall env args c, parse_flags (default_opts env) args = inl c <-> refused args c.
Proof. exact parse_refused. Qed.
(** a refused command line does nothing; an accepted one is a run with those
    options; and every command line is one or the other *)
Theorem C69_run : forall E env args s,
  (forall c, refused args c -> run_args E env args s = (Ok c, s))
  /\ (forall l rest P, cmdline args l rest -> amounts_to env l rest P -> run_args E env args s = run E P s)
  /\ ((exists c, refused args c) /\ ~ (exists l rest, cmdline args l rest)
      \/ ~ (exists c, refused args c) /\ exists l rest P, cmdline args l rest /\ amounts_to env l rest P).
Proof.
  intros E env args s. unfold run_args. split; [|split].
  - intros c C. now rewrite (proj2 (parse_refused env args c) C).
  - intros l rest P C A. now rewrite (proj2 (parse_ok env args P) (ex_intro _ l (ex_intro _ rest (conj C A)))).
  - destruct (parse_flags (default_opts env) args) as [c|P] eqn:F.
    + left. split; [exists c; now apply (parse_refused env)|]. intros (l & rest & C). rewrite (cmdline_parse _ _ _ C) in F. discriminate.
    + right. split; [|apply parse_ok in F as (l & rest & C & A); eauto]. intros [c C]. rewrite (refused_parse _ _ C) in F. discriminate.
Qed.
Lemma run_body_code E P fs cache code s' : run E P (start fs cache) = (Ok code, s') -> exists s1, run_body E P (start fs cache) = (Ok code, s1).
Proof.
  unfold run. destruct (run_body E P (start fs cache)) as [r s1]. intros R. exists s1. f_equal.
  destruct (o_json P); [destruct (print_json_results E s1)|]; congruence.
Qed.
Lemma version_code E P s code s1 : o_version P = true -> run_body E P s = (Ok code, s1) -> code = 0.
Proof. intros V. unfold run_body. rewrite V. unfold bind. destruct (print_text _ _ _) as [[u|] s2]; [|discriminate]. unfold ret. intros [= <- _]. reflexivity. Qed.
Lemma ecosystems_code E P s code s1 : o_version P = false -> o_list_eco P = true -> run_body E P s = (Ok code, s1) -> code = 0.
Proof. intros V L. unfold run_body. rewrite V, L. unfold bind. destruct (print_known_ecosystems _ _) as [[u|] s2]; [|discriminate]. unfold ret. intros [= <- _]. reflexivity. Qed.
Lemma list_code E P tr code : list_outcome E P tr code -> code <> 2.
Proof. intros [_ _ _|e _ _ _ _|l e rs c _ _ _ _ _ X _]; [discriminate|destruct (negb e && _); discriminate|lia]. Qed.
Lemma outcome_code E P fs cache tr code : outcome E P fs cache tr code -> code <> 2.
Proof. intros [_ _ _|e _ _ _ _| |l e mode rs names ds c _ _ _ _ X _]; [discriminate|destruct (negb e && _); discriminate|discriminate|destruct X; discriminate]. Qed.
Lemma run_code E P fs cache code s' : SorterOk (e_sort E) -> IterOk (e_iter E) -> EntriesOk E ->
  run E P (start fs cache) = (Ok code, s') -> code <> 2.
Proof.
  intros HS HI HE R. destruct (run_body_code E P fs cache code s' R) as [s1 B].
  destruct (o_version P) eqn:V; [|destruct (o_list_eco P) eqn:L; [|destruct (o_list_pkgs P) eqn:K]].
  - rewrite (version_code E P _ _ _ V B). discriminate.
  - rewrite (ecosystems_code E P _ _ _ V L B). discriminate.
  - exact (list_code E P _ _ (run_list E P HS HI HE fs cache code s' (conj V (conj L K)) R)).
  - exact (outcome_code E P _ _ _ _ (run_outcome E P HS HI HE fs cache code s' (conj V (conj L K)) R)).
Qed.
(** the exit code is 2 exactly for a command line refused with 2 *)
Theorem C69_two : forall E env args fs cache code s', SorterOk (e_sort E) -> IterOk (e_iter E) -> EntriesOk E ->
  run_args E env args (start fs cache) = (Ok code, s') -> (code = 2 <-> refused args 2).
Proof.
  intros E env args fs cache code s' HS HI HE. unfold run_args. pose proof (parse_refused env args 2) as F.
  destruct (parse_flags (default_opts env) args) as [c|P]; intros R.
  - rewrite <- F. injection R as -> _. split; congruence.
  - rewrite <- F. split; [|discriminate]. intros C. exfalso. exact (run_code E P fs cache code s' HS HI HE R C).
Qed.
(** the options that can be asked for: all whose batch size is a 64-bit integer *)
Theorem C69_reachable : forall env P,
  (exists args, parse_flags (default_opts env) args = inr P) <-> - 2 ^ 63 <= o_batch P < 2 ^ 63.
Proof. exact reachable. Qed.
Print Assumptions C69_accepted.
Print Assumptions C69_refused.
Print Assumptions C69_run.
Print Assumptions C69_two.
Print Assumptions C69_reachable.
Example C69_case :
  parse_flags (default_opts "true") ["--json"; "-use-api=f"; "-batch-size"; "-0x_1F"; "--ignore=A=B"; "-ignore"; "--json"; "-batch-size=1_000"; "--"; "-x"; "p"]
  = inr (mkOpts false "" "" false false false false false false false true false false 1000 ["A=B"; "--json"] ["-x"; "p"])
  /\ map (parse_flags (default_opts ""))
       [["-nope"]; ["-help=1"]; ["---json"]; ["-json=yes"]; ["-config"]; ["-batch-size=9223372036854775808"]; ["-batch-size=1__0"]; ["-batch-size=08"]]
     = [inl 2; inl 0; inl 2; inl 2; inl 2; inl 2; inl 2; inl 2]
  /\ map parse_int ["0o17"; "0b1_1"; "-9223372036854775808"; "+07"; "0x_f"] = [Some 15; Some 3; Some (- 2 ^ 63); Some 7; Some 15]
  /\ fst (run_args mx_env "" ["-use-dbs=0"; "d/go.mod"] (start mx_files (fun _ => None))) = Ok 1.
Proof. split; [|split; [|split]]; vm_compute; reflexivity. Qed.

(** a flag after the first path is not read as a flag *)
Theorem C69_anywhere_refuted : ~ (forall env path flag P, plain path -> written flag "offline" None ->
  parse_flags (default_opts env) [path; flag] = inr P -> o_offline P = true).
Proof.
  intros H. specialize (H "" "go.mod" "--offline" (set_args (default_opts "") ["go.mod"; "--offline"])).
  assert (F : false = true); [|discriminate F]. apply H; [right; right; eexists _, _; split; [reflexivity|discriminate]| |reflexivity].
  exists "--", "o"%char, "ffline". split; [right; reflexivity|]. repeat split. discriminate.
Qed.
Print Assumptions C69_anywhere_refuted.
