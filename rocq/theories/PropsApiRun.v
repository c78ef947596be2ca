(** Property theorems about runs that ask an API, from end to end (C79). *)
From Verif Require Import GoStr GoStrFacts GoSort GoSortFacts GoMap Types Osv OsvSpec MemDB MemDBSpec Path Api ApiSpec ApiProofs ApiExec ApiExecProofs ZipDB ZipSpec DirDB DirDBSpec DbConfig Configer Lockfile Csv Report ReportSpec Json Main MainSpec EndSpec EndProofs ApiRunSpec ApiRunProofs SemNum OsvExamples ConfigExamples MainExamples.

(** C79: if a run exits 0 or 1, every ID that the server of an API database in
    use lists for a package of a lockfile is accounted for in a report: what the
    server tells about it, or an advisory related to that, is listed for the
    package, as ignored iff its ID is in the ignores *)
Theorem C79_accounted : forall post get E O, SorterOk (e_sort E) -> IterOk (e_iter E) -> EntriesOk E -> served post get E -> settled post get ->
  forall fs cache code s', checking O -> distinct_names E O fs -> run E O (start fs cache) = (Ok code, s') -> code = 0%Z \/ code = 1%Z ->
  forall l c d a i p id, uses E O fs l c d -> dc_type d = "api" -> fits O l -> api_of E O d a -> nth_error (lf_pkgs l) i = Some p ->
  lists post a (lf_pkgs l) i id ->
  exists o, told post get (w_dec_osv (e_world E)) a (lf_pkgs l) id o
    /\ exists ck row g, In ck (checks (s_trace s')) /\ rp_lock (ck_report ck) = l /\ In row (rp_pkgs (ck_report ck)) /\ pv_pkg row = p
    /\ (g = o \/ related g o)
    /\ ((In g (pv_vulns row) /\ ~ In (o_id g) (ignores_of O c)) \/ (In g (pv_ignored row) /\ In (o_id g) (ignores_of O c))).
Proof. exact run_api_accounts. Qed.
(** so exit code 0 means that each of them is ignored *)
Theorem C79_clean : forall post get E O, SorterOk (e_sort E) -> IterOk (e_iter E) -> EntriesOk E -> served post get E -> settled post get ->
  forall fs cache s', checking O -> distinct_names E O fs -> run E O (start fs cache) = (Ok 0%Z, s') ->
  forall l c d a i p id, uses E O fs l c d -> dc_type d = "api" -> fits O l -> api_of E O d a -> nth_error (lf_pkgs l) i = Some p ->
  lists post a (lf_pkgs l) i id ->
  exists o g, told post get (w_dec_osv (e_world E)) a (lf_pkgs l) id o /\ (g = o \/ related g o) /\ In (o_id g) (ignores_of O c).
Proof. exact run_api_clean. Qed.
(** whatever a run reports, and however it exits, was listed by the server of an
    API database in use for that package and is what the server tells about it,
    or is held by another database in use and affects the package *)
Theorem C79_grounds : forall post get E O, SorterOk (e_sort E) -> IterOk (e_iter E) -> EntriesOk E -> served post get E -> settled post get ->
  forall fs cache code s', checking O -> distinct_names E O fs -> run E O (start fs cache) = (Ok code, s') ->
  forall ck row v, In ck (checks (s_trace s')) -> fits O (rp_lock (ck_report ck)) -> In row (rp_pkgs (ck_report ck)) -> In v (pv_vulns row ++ pv_ignored row) ->
  exists c d, uses E O fs (rp_lock (ck_report ck)) c d
    /\ (In v (pv_vulns row) -> ~ In (o_id v) (ignores_of O c)) /\ (In v (pv_ignored row) -> In (o_id v) (ignores_of O c))
    /\ (api_grounds post get E O d (rp_lock (ck_report ck)) (pv_pkg row) v
       \/ exists o, osv_same o v /\ may_hold E O cache d o /\ o_withdrawn o = None /\ (checkable (e_sem E) [o] (pv_pkg row) -> osv_affects (e_sem E) o (pv_pkg row))).
Proof. exact run_api_grounds. Qed.
(** a batch about a lockfile that the server does not answer usably makes the
    run write an error and exit 127, or 1 if something was found elsewhere *)
Theorem C79_unanswered : forall post get E O, SorterOk (e_sort E) -> IterOk (e_iter E) -> EntriesOk E -> served post get E ->
  forall fs cache code s', checking O -> distinct_names E O fs -> run E O (start fs cache) = (Ok code, s') ->
  forall l c d a, uses E O fs l c d -> dc_type d = "api" -> fits O l -> api_of E O d a -> unanswered post a (lf_pkgs l) ->
  messages KErr (s_trace s') <> [] /\ (code = 1%Z \/ code = 127%Z).
Proof. exact run_api_unanswered. Qed.
(** [served] can be met: [api_exec] is an execution of Check against any server
    that answers every request in one way *)
Theorem C79_executes : forall S dec post get db pkgs, exists posts gets,
  api_check S dec (fun u b h => h = post u b) (fun u h => h = get u) db pkgs (api_exec S dec post get db pkgs) posts gets.
Proof. exact api_executes. Qed.
Print Assumptions C79_accounted.
Print Assumptions C79_clean.
Print Assumptions C79_grounds.
Print Assumptions C79_unanswered.
Print Assumptions C79_executes.

(** a yarn.lock with lib 1.0 and other 2, asked about one by one: the server
    lists GHSA-1 and OSV-2 for lib and has details of GHSA-1 only *)
Definition ad_post (up : bool) (u b : string) : http :=
  if seqb b (payload [ex_pkg "1.0"]) then HResp 200 (Some "{""results"":[{""vulns"":[{""id"":""GHSA-1""},{""id"":""OSV-2""}]}]}")
  else if up then HResp 200 (Some "{""results"":[{}]}") else HFailed.
Definition ad_get (u : string) : http := if has_suffix u "/vulns/GHSA-1" then HResp 200 (Some "good") else HResp 404 (Some "").
Definition ad_world : World := mkWorld ex_parse_uri (fun s => None) ex_dec (fun q => ZFailed) (fun _ => NGone).
Definition ad_impl (f : ParserFn) (path : string) : PResult :=
  match f with ParseYarnLock => Ok ([ex_pkg "1.0"; mkPkg "other" "2" "" "npm" "npm"], None) | _ => Ok ([], Some "unreadable") end.
Definition ad_env (up : bool) : Env := mkEnv ad_world num_sem isort (fun _ l => l) (fun _ s => s) (fun _ => "err")
  (fun v => JObj [("id", JStr (o_id v))]) mx_stat ad_impl (fun _ => None) (fun u => u) yj_dec yj_enc (fun _ => true)
  (fun _ => api_exec isort ex_dec (ad_post up) ad_get) "v".
Definition ad_opts (ignores : list string) : Opts :=
  mkOpts false "" "" false false false false false false false false false true 1 ignores ["e"].
Definition ad_run up ignores := run (ad_env up) (ad_opts ignores) (start (fun _ => FNotExist) (fun _ => None)).
Definition ad_lock : Lockfile := mkLF "e/yarn.lock" "yarn.lock" [ex_pkg "1.0"; mkPkg "other" "2" "" "npm" "npm"].
Definition ad_api : APIDB := mkAPI "osv.dev v1 API" (identifier api_config) (mkURL "//api.osv.dev/v1" (fun x => x)) 1.
Lemma ad_served up : served (fun u b h => h = ad_post up u b) (fun u h => h = ad_get u) (ad_env up).
Proof. intros k a pkgs. exact (C79_executes isort ex_dec (ad_post up) ad_get a pkgs). Qed.
Lemma ad_settled up : settled (fun u b h => h = ad_post up u b) (fun u h => h = ad_get u).
Proof. split; intros; congruence. Qed.
Lemma ad_inputs up ig : inputs (ad_env up) (ad_opts ig) [("", "e/yarn.lock")] false.
Proof.
  apply in_found; [discriminate|]. change [("", "e/yarn.lock")] with (map (fun p => ("", clean p)) ["e/yarn.lock"] ++ []).
  change false with (false || false). apply (fa_arg (ad_env up) "" "e" [] "" "e"); [left; auto|reflexivity| |constructor].
  apply (fi_dir (ad_env up) "e" "" [("yarn.lock", false)] [("yarn.lock", false)]); [reflexivity| | |repeat constructor].
  - apply sel_take; [|constructor]. split; [reflexivity|]. right. left. split; [reflexivity|]. apply ReportProofs.mem_iff. vm_compute. reflexivity.
  - apply Permutation_refl.
Qed.
Lemma ad_reads up ig : Forall2 (reads (ad_env up) (ad_opts ig) (fun _ => FNotExist) Beside) (map as_arg [("", "e/yarn.lock")]) [Usable ad_lock empty_config].
Proof.
  constructor; [|constructor]. apply rd_ok.
  - apply cf_beside with []. vm_compute. reflexivity.
  - vm_compute. reflexivity.
Qed.
Lemma ad_uses up ig l c d : uses (ad_env up) (ad_opts ig) (fun _ => FNotExist) l c d <-> l = ad_lock /\ c = empty_config /\ d = api_config.
Proof.
  assert (M : mode_of (ad_env up) (ad_opts ig) (fun _ => FNotExist) Beside) by (apply mo_beside; reflexivity).
  split.
  - intros U. destruct (uses_in _ _ _ _ _ _ _ _ _ _ (ad_inputs up ig) M (ad_reads up ig) U) as [[H|[]] A]. injection H as <- <-.
    split; [reflexivity|]. split; [reflexivity|].
    inversion A as [m l1 c1 d1 N W|m l1 c1 d1 l0 c0 S|m l1 c1 d1 us l0 c0 S]; [|discriminate S|discriminate S].
    destruct W as [[_ []]|[[_ W]|[W _]]]; [exact W|discriminate W].
  - intros (-> & -> & ->). exists [("", "e/yarn.lock")], false, Beside, [Usable ad_lock empty_config].
    split; [apply ad_inputs|]. split; [exact M|]. split; [apply ad_reads|]. split; [now left|]. constructor; [discriminate|]. right. left. auto.
Qed.
Lemma ad_lists id : In id ["GHSA-1"; "OSV-2"] -> lists (fun u b h => h = ad_post true u b) ad_api (lf_pkgs ad_lock) 0 id.
Proof.
  intros I. exists [["GHSA-1"; "OSV-2"]; []], ["GHSA-1"; "OSV-2"]. split; [|split; [reflexivity|exact I]].
  exists [[ex_pkg "1.0"]; [mkPkg "other" "2" "" "npm" "npm"]], [[["GHSA-1"; "OSV-2"]]; [[]]].
  split; [destruct (batch_pkgs_spec (lf_pkgs ad_lock) 1) as (bs & E & B); [lia|vm_compute; discriminate|]; vm_compute in E; injection E as <-; exact B|].
  split; [|reflexivity].
  constructor; [|constructor; [|constructor]]; eexists; (split; [reflexivity|]); apply batch_reply_ok; vm_compute; reflexivity.
Qed.
(** found, found although one is ignored, and clean; with a server that does not
    answer the second question, found or an error *)
Example C79_case : distinct_names (ad_env true) (ad_opts []) (fun _ => FNotExist) /\ uses (ad_env true) (ad_opts []) (fun _ => FNotExist) ad_lock empty_config api_config
  /\ api_of (ad_env true) (ad_opts []) api_config ad_api /\ fits (ad_opts []) ad_lock
  /\ fst (ad_run true []) = Ok 1%Z /\ fst (ad_run true ["GHSA-1"]) = Ok 1%Z /\ fst (ad_run true ["GHSA-1"; "OSV-2"]) = Ok 0%Z
  /\ fst (ad_run false ["GHSA-1"; "OSV-2"]) = Ok 127%Z.
Proof.
  split; [intros l c d U; apply ad_uses in U as (_ & _ & ->); reflexivity|]. split; [now apply ad_uses|].
  split; [exists "osv.dev v1 API", (mkURL "//api.osv.dev/v1" (fun x => x)); split; reflexivity|].
  split; [split; vm_compute; [reflexivity|discriminate]|]. split; [vm_compute; reflexivity|]. split; [vm_compute; reflexivity|].
  split; vm_compute; reflexivity.
Qed.
Example C79_down_case : unanswered (fun u b h => h = ad_post false u b) ad_api (lf_pkgs ad_lock).
Proof.
  exists [[ex_pkg "1.0"]; [mkPkg "other" "2" "" "npm" "npm"]], [mkPkg "other" "2" "" "npm" "npm"].
  split; [destruct (batch_pkgs_spec (lf_pkgs ad_lock) 1) as (bs & E & B); [lia|vm_compute; discriminate|]; vm_compute in E; injection E as <-; exact B|].
  split; [right; now left|]. intros h ->. exists EFailed. apply batch_reply_err. vm_compute. reflexivity.
Qed.
