(** C87: a run touches nothing but what its flags, its lockfiles and their
    configs name. *)
From Verif Require Import GoStr GoStrFacts GoSort GoSortFacts GoMap Types Osv MemDB Path Api ZipDB DirDB DbConfig Configer Lockfile Report Main MainSpec MainProofs OsvExamples ConfigExamples MainExamples ApiRunSpec TouchSpec TouchProofs PropsOffline.

(** every step, in runs that finish and in those that crash *)
Theorem C87_steps : forall E O fs cache r s', SorterOk (e_sort E) -> IterOk (e_iter E) -> EntriesOk E ->
  run E O (start fs cache) = (r, s') -> Forall (allowed E O fs cache) (s_trace s').
Proof. exact (fun E O fs cache r s' SO IT EO R => b_trace _ _ _ _ _ (proj1 (run_final E O fs cache SO IT EO r s' R))). Qed.
(** a config changes only if the run says it writes it, and then to what it says *)
Theorem C87_files : forall E O fs cache r s', SorterOk (e_sort E) -> IterOk (e_iter E) -> EntriesOk E ->
  run E O (start fs cache) = (r, s') ->
  forall p, s_files s' p = fs p \/ exists c, In (EWriteConfig p c) (s_trace s') /\ s_files s' p = FOk c.
Proof. exact (fun E O fs cache r s' SO IT EO R => proj2 (run_final E O fs cache SO IT EO r s' R)). Qed.
(** a file of the cache changes only if its archive was asked for *)
Theorem C87_cache : forall E O fs cache r s', SorterOk (e_sort E) -> IterOk (e_iter E) -> EntriesOk E ->
  run E O (start fs cache) = (r, s') ->
  forall p, s_cache s' p = cache p \/ exists q, In (EZip q) (s_trace s') /\ p = e_cache_path E (rq_url q).
Proof. exact (fun E O fs cache r s' SO IT EO R => b_cache _ _ _ _ _ (proj1 (run_final E O fs cache SO IT EO r s' R))). Qed.
(** there is at most one request for an archive per database *)
Theorem C87_requests : forall E O fs cache r s', SorterOk (e_sort E) -> IterOk (e_iter E) -> EntriesOk E ->
  run E O (start fs cache) = (r, s') -> List.length (requests (s_trace s')) <= List.length (loads (s_trace s')).
Proof. exact (fun E O fs cache r s' SO IT EO R => b_count _ _ _ _ _ (proj1 (run_final E O fs cache SO IT EO r s' R))). Qed.
(** without databases from configs only osv.dev's servers are asked *)
Theorem C87_hosts : forall E O fs cache r s', SorterOk (e_sort E) -> IterOk (e_iter E) -> EntriesOk E ->
  run E O (start fs cache) = (r, s') -> o_no_config O = true \/ o_no_dbs O = true ->
  (forall q, In (EZip q) (s_trace s') -> o_use_dbs O = true /\ exists eco, rq_url q = "https://osv-vulnerabilities.storage.googleapis.com/" +s+ eco +s+ "/all.zip")
  /\ (forall a ps, In (EApi a ps) (s_trace s') -> o_use_api O = true /\ w_parse_uri (e_world E) "https://api.osv.dev/v1" = Some (api_url a)).
Proof. exact (fun E O fs cache r s' SO IT EO R => hosts E O fs cache SO IT EO r s' R). Qed.
(** with --offline, --list-packages, --version or --list-ecosystems nothing is
    asked or changed, except that an offline run may update configs *)
Theorem C87_quiet : forall E O fs cache r s', SorterOk (e_sort E) -> IterOk (e_iter E) -> EntriesOk E ->
  run E O (start fs cache) = (r, s') -> o_offline O = true \/ ~ checking O ->
  (forall p, s_cache s' p = cache p) /\ (forall e, In e (s_trace s') -> match e with EZip _ | EApi _ _ => False | _ => True end)
  /\ (o_update O = false \/ ~ checking O -> forall p, s_files s' p = fs p).
Proof. exact (fun E O fs cache r s' SO IT EO R => quiet E O fs cache SO IT EO r s' R). Qed.
Print Assumptions C87_steps.
Print Assumptions C87_files.
Print Assumptions C87_cache.
Print Assumptions C87_requests.
Print Assumptions C87_hosts.
Print Assumptions C87_quiet.

(** what a run reads, asks and writes *)
Definition touched (tr : list ev) : list string :=
  flat_map (fun e => match e with
    | EReadConfig p => ["read " +s+ p] | EWriteConfig p _ => ["write " +s+ p] | EZip q => ["get " +s+ rq_url q]
    | EApi a ps => map (fun p => "ask " +s+ api_name a +s+ " about " +s+ p_name p) ps | _ => [] end) tr.
Definition to_opts (no_dbs : bool) : Opts := mkOpts false "" "" false true false no_dbs false false false false true true 1000 [] ["d/go.mod"].
Example C87_case :
  touched (s_trace (snd (mx_run (to_opts false)))) =
    ["read d/.osv-detector.yml"; "get https://osv-vulnerabilities.storage.googleapis.com/Go/all.zip";
     "ask mine about bad"; "ask mine about fine"; "ask osv.dev v1 API about bad"; "ask osv.dev v1 API about fine";
     "read d/.osv-detector.yml"; "write d/.osv-detector.yml"]
  /\ touched (s_trace (snd (mx_run (to_opts true)))) =
    ["read d/.osv-detector.yml"; "get https://osv-vulnerabilities.storage.googleapis.com/Go/all.zip";
     "ask osv.dev v1 API about bad"; "ask osv.dev v1 API about fine"; "read d/.osv-detector.yml"; "write d/.osv-detector.yml"]
  /\ s_cache (snd (mx_run (to_opts true))) "https://osv-vulnerabilities.storage.googleapis.com/Go/all.zip" <> None.
Proof. repeat split; try (vm_compute; reflexivity). vm_compute. discriminate. Qed.

(** but an archive may be asked for twice: once for each database in it *)
Theorem C87_twice_refuted : exists E O fs cache r s' q1 q2, SorterOk (e_sort E) /\ IterOk (e_iter E) /\ EntriesOk E
  /\ run E O (start fs cache) = (r, s') /\ (exists a b c, requests (s_trace s') = a ++ q1 :: b ++ q2 :: c) /\ rq_url q1 = rq_url q2.
Proof.
  exists (of_env true), (mx_opts ["e"]), of_files, (fun _ => None), (fst of_first), (snd of_first).
  exists (mkReq "https://x/a.zip" None), (mkReq "https://x/a.zip" (Some ("tag", "today"))).
  split; [exact isort_ok|]. split; [intros A l; reflexivity|]. split; [exact mx_entries|].
  split; [unfold of_first, of_run; apply surjective_pairing|]. split; [|reflexivity]. exists [], [], [mkReq "https://x/c.zip" None]. vm_compute. reflexivity.
Qed.
Print Assumptions C87_twice_refuted.
