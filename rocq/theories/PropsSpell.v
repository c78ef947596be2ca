(** C96: --parse-as and directories are shorthand. *)
From Verif Require Import GoStr GoStrFacts GoSort GoSortFacts Types Json Osv MemDB Path Api ZipDB DirDB DbConfig Configer GoMap Lockfile Report Main MainSpec MainExamples RunEnd AmongProofs SpellSpec SpellProofs.

(** --parse-as stands for giving that parser with each path that has none: the
    run is the same in every respect, whatever the paths are. *)
Theorem C96_parse_as : forall E O args s, known_as (o_parse_as O) -> no_rows O ->
  Forall2 (explicit (o_parse_as O)) (o_args O) args -> run E (spelled O args) s = run E O s.
Proof. exact explicit_run. Qed.
(** A run is the same in every respect when the lockfiles it finds are given
    one by one, each with its parser, provided that all paths can be read. *)
Theorem C96_files : forall E O l s, SorterOk (e_sort E) -> EntriesOk E -> known_as (o_parse_as O) -> no_rows O ->
  finds_all E (o_parse_as O) (o_args O) l false -> l <> [] -> (forall q, In q l -> e_stat E (snd q) = KFile) ->
  run E (spelled O (map as_arg l)) s = run E O s.
Proof. exact files_run. Qed.
(** Not so for rows of CSV: csv-row as the parser of a path does not make it a row. *)
Theorem C96_rows_refuted : exists E O args s, known_as (o_parse_as O)
  /\ Forall2 (explicit (o_parse_as O)) (o_args O) args /\ fst (run E (spelled O args) s) <> fst (run E O s).
Proof.
  exists mx_env, (mkOpts false "csv-row" "" false false false false false false false false false false 1000 [] ["npm,,fine,2"]), ["csv-row:npm,,fine,2"], (start mx_files (fun _ => None)).
  split; [right; right; left; reflexivity|]. split; [|vm_compute; discriminate]. constructor; [|constructor].
  apply (ex_global "csv-row" "npm,,fine,2" "npm,,fine,2"). left. repeat split.
Qed.
Print Assumptions C96_parse_as.
Print Assumptions C96_files.
Print Assumptions C96_rows_refuted.

(** as in mx_env, but the files of d and e can be opened *)
Definition sp_stat (p : string) : path_kind := if seqb p "e/yarn.lock" || seqb p "d/Cargo.lock" then KFile else mx_stat p.
Definition sp_env : Env := mkEnv mx_world (e_sem mx_env) isort (fun _ l => l) (fun _ s => s) (fun _ => "err")
  (fun v => JObj [("id", JStr (o_id v))]) sp_stat mx_impl (fun _ => None) (fun u => u) (e_dec_yaml mx_env) (e_enc_yaml mx_env) (fun _ => true) mx_api "v".
Lemma sp_entries : EntriesOk sp_env.
Proof.
  intros path entries H. cbn in H. unfold sp_stat in H. destruct (seqb path "e/yarn.lock" || seqb path "d/Cargo.lock"); [discriminate|]. exact (mx_entries path entries H).
Qed.
Definition sp_opts (parse_as : string) (args : list string) : Opts := mkOpts false parse_as "" false false false false false false false false false true 1000 [] args.
Definition sp_start := start mx_files (fun _ => None).
Definition sp_found : list (string * string) := [("", "d/Cargo.lock"); ("", "d/go.mod"); ("yarn.lock", "e/yarn.lock")].
Lemma sp_no_rows a l : a <> "csv-row" -> forallb (fun x => negb (seqb (fst (split_parse_as x)) "csv-row")) l = true -> no_rows (sp_opts a l).
Proof.
  intros A H. split; [exact A|]. intros x p I M. rewrite forallb_forall in H. specialize (H x I). apply DiscoverProofs.split_means in M. rewrite M in H. discriminate.
Qed.
Lemma sp_all : finds_all sp_env "" ["d"; "yarn.lock:e"] sp_found false.
Proof.
  destruct (discovery sp_env (sp_opts "" ["d"; "yarn.lock:e"]) isort_ok sp_entries sp_start ltac:(discriminate)) as (l & e & t & R & F).
  pose proof (found_round _ _ _ _ _ F eq_refl) as A.
  assert (B : find_all_lockfiles sp_env (sp_opts "" ["d"; "yarn.lock:e"]) sp_start = (Ok (map as_arg sp_found, false), sp_start)) by (vm_compute; reflexivity).
  rewrite B in R. injection R as R <- _.
  assert (C : l = map split_parse_as (map as_arg l)) by (clear -A; induction A as [|q l Q A IH]; cbn; [reflexivity|rewrite Q; now rewrite <- IH]).
  rewrite C in F.
  assert (D : map as_arg l = map as_arg sp_found) by (symmetry; exact R). rewrite D in F. exact F.
Qed.
Example C96_case :
  run sp_env (spelled (sp_opts "yarn.lock" ["e"; "go.mod:d/go.mod"; "gone"]) ["yarn.lock:e"; "go.mod:d/go.mod"; "yarn.lock:gone"]) sp_start
    = run sp_env (sp_opts "yarn.lock" ["e"; "go.mod:d/go.mod"; "gone"]) sp_start
  /\ fst (run sp_env (sp_opts "yarn.lock" ["e"; "go.mod:d/go.mod"; "gone"]) sp_start) = Ok 1%Z
  /\ run sp_env (spelled (sp_opts "" ["d"; "yarn.lock:e"]) [":d/Cargo.lock"; ":d/go.mod"; "yarn.lock:e/yarn.lock"]) sp_start
    = run sp_env (sp_opts "" ["d"; "yarn.lock:e"]) sp_start
  /\ List.length (checks (s_trace (snd (run sp_env (sp_opts "" ["d"; "yarn.lock:e"]) sp_start)))) = 2.
Proof.
  split; [|split; [vm_compute; reflexivity|split; [|vm_compute; reflexivity]]].
  - apply C96_parse_as; [right; right; right; vm_compute; tauto|now apply sp_no_rows|]. repeat constructor.
    + apply (ex_global "yarn.lock" "e" "e"). left. repeat split.
    + apply (ex_own "yarn.lock" "go.mod:d/go.mod" "go.mod" "d/go.mod"); [right; repeat split|discriminate].
    + apply (ex_global "yarn.lock" "gone" "gone"). left. repeat split.
  - apply (C96_files sp_env (sp_opts "" ["d"; "yarn.lock:e"]) sp_found sp_start isort_ok sp_entries (or_introl eq_refl)); [now apply sp_no_rows|exact sp_all|discriminate|].
    intros q [<-|[<-|[<-|[]]]]; reflexivity.
Qed.
