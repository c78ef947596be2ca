(** Property theorems about runs from end to end (C70). *)
From Verif Require Import GoStr GoStrFacts GoSort GoSortFacts GoMap Types Osv OsvSpec MemDB MemDBSpec Path Api ZipDB ZipSpec DirDB DirDBSpec DbConfig Configer Lockfile Csv Report ReportSpec Json Main MainSpec EndSpec EndProofs SemNum OsvExamples ConfigExamples MainExamples.

(** C70: if a run exits 0 or 1, every advisory that a database in use for a
    lockfile is bound to hold, that is not withdrawn and that affects one of the
    lockfile's packages, is accounted for in a report: the advisory itself or
    one related to it is listed for that package, as ignored iff its ID is in
    the ignores *)
Theorem C70_accounted : forall E O, SorterOk (e_sort E) -> IterOk (e_iter E) -> EntriesOk E ->
  forall fs cache code s', checking O -> distinct_names E O fs -> run E O (start fs cache) = (Ok code, s') -> code = 0%Z \/ code = 1%Z ->
  forall l c d p o, uses E O fs l c d -> In p (lf_pkgs l) -> has_char ":" (p_eco p) = false ->
  must_hold E O cache d o -> o_withdrawn o = None -> checkable (e_sem E) [o] p -> osv_affects (e_sem E) o p ->
  accounts (s_trace s') l p (ignores_of O c) o.
Proof. exact run_accounts. Qed.
(** so exit code 0 means that each such advisory is ignored *)
Theorem C70_clean : forall E O, SorterOk (e_sort E) -> IterOk (e_iter E) -> EntriesOk E ->
  forall fs cache s', checking O -> distinct_names E O fs -> run E O (start fs cache) = (Ok 0%Z, s') ->
  forall l c d p o, uses E O fs l c d -> In p (lf_pkgs l) -> has_char ":" (p_eco p) = false ->
  must_hold E O cache d o -> o_withdrawn o = None -> checkable (e_sem E) [o] p -> osv_affects (e_sem E) o p ->
  exists r g, alike o r /\ (g = r \/ related g r) /\ In (o_id g) (ignores_of O c).
Proof. exact clean_ignored. Qed.
(** and exit code 1 means that there is one not ignored, held by a database in
    use or returned by an API for a package *)
Theorem C70_grounds : forall E O, SorterOk (e_sort E) -> IterOk (e_iter E) -> EntriesOk E ->
  forall fs cache s', checking O -> distinct_names E O fs -> run E O (start fs cache) = (Ok 1%Z, s') ->
  exists l c d p v, uses E O fs l c d /\ In p (lf_pkgs l) /\ ~ In (o_id v) (ignores_of O c) /\ grounds E O cache d l p v.
Proof. exact run_grounds. Qed.
(** indeed whatever a run reports, and however it exits, has grounds *)
Theorem C70_every : forall E O, SorterOk (e_sort E) -> IterOk (e_iter E) -> EntriesOk E ->
  forall fs cache code s', checking O -> distinct_names E O fs -> run E O (start fs cache) = (Ok code, s') ->
  forall ck row v, In ck (checks (s_trace s')) -> In row (rp_pkgs (ck_report ck)) -> In v (pv_vulns row ++ pv_ignored row) ->
  exists c d, uses E O fs (rp_lock (ck_report ck)) c d /\ In (pv_pkg row) (lf_pkgs (rp_lock (ck_report ck)))
    /\ (In v (pv_vulns row) -> ~ In (o_id v) (ignores_of O c)) /\ (In v (pv_ignored row) -> In (o_id v) (ignores_of O c))
    /\ grounds E O cache d (rp_lock (ck_report ck)) (pv_pkg row) v.
Proof. exact run_every. Qed.
(** the archive of a zip database: offline the cached one; online, if the server
    is honest and the cache was written by earlier runs, the current one *)
Theorem C70_offline_archive : forall E O cache d entries, o_offline O = true ->
  (archive E O cache d entries <-> exists c, cache (e_cache_path E (dc_url d)) = Some c
     /\ exists k, fst (dec_cache c) = Some k /\ w_unzip (e_world E) (match c_body k with Some b => b | None => "" end) = Some entries).
Proof. exact archive_offline. Qed.
Theorem C70_current_archive : forall E O cache fs0 ds d etag body entries, o_offline O = false ->
  (forall u v, e_cache_path E u = e_cache_path E v -> u = v) -> (forall u, fs0 (e_cache_path E u) = None) ->
  zip_history (e_cache_path E) fs0 cache ds -> honest (dc_url d) etag body (w_answer (e_world E)) ->
  (forall x, In x ds -> d_url x = dc_url d -> to_valid (d_etag x) = etag -> d_body x = body) ->
  archive E O cache d entries -> w_unzip (e_world E) body = Some entries.
Proof. exact archive_current. Qed.
Print Assumptions C70_accounted.
Print Assumptions C70_clean.
Print Assumptions C70_grounds.
Print Assumptions C70_every.
Print Assumptions C70_offline_archive.
Print Assumptions C70_current_archive.

(** a yarn.lock with lib 1.0, which the advisory GHSA-1 in the npm archive
    affects; the config beside it uses two more databases *)
Definition ed_world (tree : string -> node) : World :=
  mkWorld ex_parse_uri (fun s => if seqb s "zip" then Some [("a.json", Some "good"); ("b.json", Some "bad")] else None) ex_dec
    (fun q => ZResp 200 "e" "today" (Some "zip")) tree.
Definition ed_tree (p : string) : node :=
  if seqb p "a/b" then NDir (Some [("x.json", NFile (Some "good"))]) else NDir (Some []).
Definition ed_impl (f : ParserFn) (path : string) : PResult :=
  match f with ParseYarnLock => Ok ([ex_pkg "1.0"; mkPkg "other" "2" "" "npm" "npm"], None) | _ => Ok ([], Some "unreadable") end.
Definition ed_env : Env := mkEnv (ed_world ed_tree) num_sem isort (fun _ l => l) (fun _ s => s) (fun _ => "err")
  (fun v => JObj [("id", JStr (o_id v))]) mx_stat ed_impl (fun _ => None) (fun u => u) yj_dec yj_enc (fun _ => true) mx_api "v".
Definition ed_files (dbs : list raw_db) (p : string) : fread :=
  if seqb p "e/.osv-detector.yml" then FOk (yj_enc (mkRC [] dbs)) else FNotExist.
Definition ed_opts (dbs : bool) (ignores : list string) : Opts :=
  mkOpts false "" "" false false false false false false false false dbs false 1000 ignores ["e"].
Definition ed_run dbs ignores raws := run ed_env (ed_opts dbs ignores) (start (ed_files raws) (fun _ => None)).
Lemma ed_entries : EntriesOk ed_env. Proof. exact mx_entries. Qed.
Definition ed_lock : Lockfile := mkLF "e/yarn.lock" "yarn.lock" [ex_pkg "1.0"; mkPkg "other" "2" "" "npm" "npm"].
Definition ed_dbs (raws : list raw_db) : list DBConfig := fst (to_configs ex_parse_uri raws).
Definition ed_config (raws : list raw_db) : Config := mkCfg "e/.osv-detector.yml" [] (ed_dbs raws).
Definition ed_clash : list raw_db := [mkRD "file:/a#b" "one" "" ""; mkRD "file:/a" "two" "" "b"].
Lemma ed_inputs b ig : inputs ed_env (ed_opts b ig) [("", "e/yarn.lock")] false.
Proof.
  apply in_found; [discriminate|]. change [("", "e/yarn.lock")] with (map (fun p => ("", clean p)) ["e/yarn.lock"] ++ []).
  change false with (false || false). apply (fa_arg ed_env "" "e" [] "" "e"); [left; auto|reflexivity| |constructor].
  apply (fi_dir ed_env "e" "" [("yarn.lock", false)] [("yarn.lock", false)]); [reflexivity| | |repeat constructor].
  - apply sel_take; [|constructor]. split; [reflexivity|]. right. left. split; [reflexivity|]. apply ReportProofs.mem_iff. vm_compute. reflexivity.
  - apply Permutation_refl.
Qed.
Lemma ed_reads b ig raws : In raws [[]; ed_clash] -> Forall2 (reads ed_env (ed_opts b ig) (ed_files raws) Beside) (map as_arg [("", "e/yarn.lock")]) [Usable ed_lock (ed_config raws)].
Proof.
  intros I. constructor; [|constructor]. apply rd_ok.
  - apply cf_beside with []. destruct I as [<-|[<-|[]]]; vm_compute; reflexivity.
  - vm_compute. reflexivity.
Qed.
Lemma ed_uses b ig raws l c d : In raws [[]; ed_clash] ->
  (uses ed_env (ed_opts b ig) (ed_files raws) l c d <-> l = ed_lock /\ c = ed_config raws /\ MainSpec.wanted (ed_opts b ig) l c d).
Proof.
  intros I. assert (M : mode_of ed_env (ed_opts b ig) (ed_files raws) Beside) by (apply mo_beside; reflexivity).
  split.
  - intros U. destruct (uses_in _ _ _ _ _ _ _ _ _ _ (ed_inputs b ig) M (ed_reads b ig raws I) U) as [[H|[]] A]. injection H as <- <-.
    split; [reflexivity|]. split; [reflexivity|]. inversion A as [m l1 c1 d1 N W|m l1 c1 d1 l0 c0 S|m l1 c1 d1 us l0 c0 S]; [exact W| |]; discriminate S.
  - intros (-> & -> & W). exists [("", "e/yarn.lock")], false, Beside, [Usable ed_lock (ed_config raws)].
    split; [apply ed_inputs|]. split; [exact M|]. split; [now apply ed_reads|]. split; [now left|]. constructor; [discriminate|exact W].
Qed.
Lemma ed_checkable : checkable num_sem [ex_osv] (ex_pkg "1.0").
Proof. destruct (ex_checkable "1.0" eq_refl) as [V P W]. split; auto. inversion W; subst. auto. Qed.
Lemma ed_affects : osv_affects num_sem ex_osv (ex_pkg "1.0").
Proof.
  destruct ed_checkable as [V P W]. inversion W; subst.
  destruct (OsvProofs.is_affected_spec isort num_sem ex_osv (ex_pkg "1.0") isort_ok V H1 P) as (b & v & Q & _ & B). apply B.
  assert (Q' : match is_affected isort num_sem ex_osv (ex_pkg "1.0") with Ok (b, _) => b | Panic => false end = true) by (vm_compute; reflexivity).
  now rewrite Q in Q'.
Qed.
(** the hypotheses hold of GHSA-1 and the npm archive; found, unless ignored *)
Example C70_case : let d := ecosystem_config "npm" in
  distinct_names ed_env (ed_opts true []) (ed_files []) /\ uses ed_env (ed_opts true []) (ed_files []) ed_lock (ed_config []) d
  /\ must_hold ed_env (ed_opts true []) (fun _ => None) d ex_osv
  /\ checkable num_sem [ex_osv] (ex_pkg "1.0") /\ osv_affects num_sem ex_osv (ex_pkg "1.0")
  /\ fst (ed_run true [] []) = Ok 1%Z /\ fst (ed_run true ["GHSA-1"] []) = Ok 0%Z.
Proof.
  split; [|split; [|split; [|split; [exact ed_checkable|split; [exact ed_affects|split; vm_compute; reflexivity]]]]].
  - intros l c d U. apply ed_uses in U as (-> & -> & [[_ []]|[[N _]|[_ (p & P & _ & ->)]]]); [discriminate N| |now left].
    destruct P as [<-|[<-|[]]]; reflexivity.
  - apply ed_uses; [now left|]. split; [reflexivity|]. split; [reflexivity|]. right. right. split; [reflexivity|].
    exists (ex_pkg "1.0"). split; [now left|]. split; [discriminate|reflexivity].
  - apply st_zip; [reflexivity|]. intros entries (before & body & date & w & rq & C & F & U).
    assert (B : body = "zip"). { unfold fetch_zip in F. cbn [ed_opts o_offline w_answer ed_env e_world ed_world] in F.
      change (Z.eqb 200 304) with false in F. change (negb (Z.eqb 200 200)) with false in F. cbv beta iota zeta in F. congruence. }
    subst body. cbn in U. injection U as <-. exists ("a.json", Some "good"). split; [now left|].
    split; [now exists "a.json"|]. split; [now exists "a"|]. exists "good". auto.
Qed.
(** the hypothesis about # is needed: of two databases with the same identifier
    only the first is loaded, so an advisory of the second is missed *)
Theorem C70_fragment_refuted : exists E O fs cache s' l c d p o,
  SorterOk (e_sort E) /\ IterOk (e_iter E) /\ EntriesOk E /\ checking O /\ run E O (start fs cache) = (Ok 0%Z, s')
  /\ uses E O fs l c d /\ In p (lf_pkgs l) /\ has_char ":" (p_eco p) = false /\ must_hold E O cache d o /\ o_withdrawn o = None
  /\ checkable (e_sem E) [o] p /\ osv_affects (e_sem E) o p /\ ignores_of O c = [].
Proof.
  exists ed_env, (ed_opts false []), (ed_files ed_clash), (fun _ => None), (snd (ed_run false [] ed_clash)), ed_lock, (ed_config ed_clash),
    (mkDC "two" "dir" "file:/a" "b"), (ex_pkg "1.0"), ex_osv.
  split; [exact isort_ok|]. split; [exact mx_iter|]. split; [exact ed_entries|]. split; [repeat split|].
  split; [unfold ed_run; vm_compute; reflexivity|]. split.
  { apply ed_uses; [right; now left|]. split; [reflexivity|]. split; [reflexivity|]. left. split; [reflexivity|]. right. now left. }
  split; [now left|]. split; [reflexivity|]. split.
  { apply st_dir; [reflexivity|]. exists (mkURL "/a" (fun x => x)), ["x.json"]. split; [reflexivity|]. exists "good".
    split; [|split; [now exists "x"|reflexivity]]. cbv zeta. change (path_join [trim_prefix "/a" "/"; "b"]) with "a/b".
    eapply ap_below; [now left|constructor]. }
  split; [reflexivity|]. split; [exact ed_checkable|]. split; [exact ed_affects|reflexivity].
Qed.
Print Assumptions C70_fragment_refuted.
