(** C86: why a run crashes *)
From Verif Require Import Scan Parsers ParserSpec.
From Verif Require Import GoStr GoStrFacts GoSort GoSortFacts GoMap Types Json JsonSpec Osv OsvSpec OsvJson MemDB MemDBSpec Path Api ApiSpec ZipDB ZipSpec DirDB DirDBSpec DbConfig Configer Lockfile Report Main MainSpec EndSpec EndProofs ApiRunSpec ApiExec ApiExecProofs ApiRunProofs CrashRunSpec CrashRunProofs SemNum OsvExamples ConfigExamples MainExamples PropsBytes.
From Verif Require JsonGrammar.

(** a run crashes only because a parser crashes on a lockfile, because the server
    of a zip database that is not cached says that it has not changed, because a
    version cannot be compared, or because of an API *)
Theorem C86_only : forall E O, SorterOk (e_sort E) -> ComparesOk (e_sort E) -> IterOk (e_iter E) -> EntriesOk E ->
  forall fs cache s', distinct_names E O fs -> run E O (start fs cache) = (Panic, s') ->
  crash_reason E O fs cache (crashes_on E) \/ api_crash E O fs.
Proof. exact run_panic. Qed.
Print Assumptions C86_only.
(** an API whose check is that of api-check.go is never the reason *)
Theorem C86_served : forall post get E O fs cache s', SorterOk (e_sort E) -> ComparesOk (e_sort E) -> IterOk (e_iter E) -> EntriesOk E ->
  served post get E -> (forall l c d, uses E O fs l c d -> fits O l) -> distinct_names E O fs ->
  run E O (start fs cache) = (Panic, s') -> crash_reason E O fs cache (crashes_on E).
Proof. exact run_panic_served. Qed.
Print Assumptions C86_served.
(** and a parser crashes for the reasons of C64 *)
Theorem C86_bytes : forall post get D fls E O fs cache s', SorterOk (e_sort E) -> ComparesOk (e_sort E) -> IterOk (e_iter E) -> EntriesOk E ->
  parses_bytes E D fls -> served post get E -> (forall l c d, uses E O fs l c d -> fits O l) -> distinct_names E O fs ->
  run E O (start fs cache) = (Panic, s') -> crash_reason E O fs cache (fun f path => crash_cause D fls path f).
Proof.
  intros post get D fls E O fs cache s' HS HC HI HE PB SV FI DN H. eapply reason_mono; [|eapply run_panic_served; eauto].
  exact (bytes_crash E D fls HI PB).
Qed.
Print Assumptions C86_bytes.
(** each reason does crash the run: the lockfile *)
Theorem C86_lockfile : forall E O fs cache, SorterOk (e_sort E) -> IterOk (e_iter E) -> EntriesOk E -> known_as (o_parse_as O) ->
  forall l e pa path f pas, inputs E O l e -> In (pa, path) l -> find_parser path pa = (Some f, pas) -> e_impl E f path = Panic ->
  listing O \/ checking O /\ config_found E O fs path -> fst (run E O (start fs cache)) = Panic.
Proof. exact lockfile_crash. Qed.
Print Assumptions C86_lockfile.
(** the server that says unchanged *)
Theorem C86_unchanged : forall E O fs cache, SorterOk (e_sort E) -> IterOk (e_iter E) -> EntriesOk E -> known_as (o_parse_as O) -> checking O -> distinct_names E O fs ->
  forall l c d, uses E O fs l c d -> dc_type d = "zip" -> o_offline O = false -> says_unchanged E (dc_url d) -> own_cache E (dc_url d) ->
  useless (cache (e_cache_path E (dc_url d))) -> fst (run E O (start fs cache)) = Panic.
Proof. exact unchanged_crash. Qed.
Print Assumptions C86_unchanged.
(** a version that cannot be compared with a range that is looked at is never
    passed over: the run does not end as if all had been checked *)
Theorem C86_version : forall E O fs cache, SorterOk (e_sort E) -> IterOk (e_iter E) -> EntriesOk E -> checking O -> distinct_names E O fs ->
  forall l c d p o, uses E O fs l c d -> In p (lf_pkgs l) -> has_char ":" (p_eco p) = false -> must_hold E O cache d o -> o_withdrawn o = None ->
  trips (e_sem E) o p -> forall code s', run E O (start fs cache) = (Ok code, s') -> code <> 0%Z /\ code <> 1%Z.
Proof. exact version_crash. Qed.
Print Assumptions C86_version.

(** a composer.lock that is null; a yarn.lock with lib 1.x, checked against an
    advisory about lib, or against a zip database whose server says 304 *)
Definition cr_fls (p : string) : txt :=
  if seqb p "e/composer.lock" then Text " null " false
  else if seqb p "e/yarn.lock" then Text "lib@^1.0.0:
  version ""1.x""
" false else Gone.
Definition cr_stat (p : string) : path_kind := if seqb p "e/composer.lock" then KFile else if seqb p "e/yarn.lock" then KFile else KNoOpen.
Definition cr_world : World := mkWorld ex_parse_uri (fun _ => None) (dec_osv by_rfc) (fun _ => ZResp 304 "" "" None) by_tree.
Definition cr_post (u b : string) : http := HFailed.
Definition cr_get (u : string) : http := HFailed.
Definition cr_env : Env := mkEnv cr_world num_sem isort by_it (fun _ s => s) (fun _ => "err")
  (fun v => JObj [("id", JStr (o_id v))]) cr_stat (impl by_dec by_it cr_fls 9 (fun _ => "err")) (fun _ => None) (fun u => u) yj_dec yj_enc (fun _ => true)
  (fun _ => api_exec isort (dec_osv by_rfc) cr_post cr_get) "v".
Definition cr_opts (arg : string) : Opts := mkOpts false "" "" false false false false false false false false false false 1000 [] [arg].
Definition cr_files (zip : bool) (p : string) : fread :=
  if seqb p "e/.osv-detector.yml" then FOk (yj_enc (mkRC [] [if zip then mkRD "https://x/a.zip" "z" "" "" else mkRD "file:/db" "local" "" ""])) else FNotExist.
Definition cr_db (zip : bool) : DBConfig := if zip then mkDC "z" "zip" "https://x/a.zip" "" else by_db.
Definition cr_config (zip : bool) : Config := mkCfg "e/.osv-detector.yml" [] [cr_db zip].
Definition cr_lib : Pkg := mkPkg "lib" "1.x" "" "npm" "npm".
Definition cr_lock : Lockfile := mkLF "e/yarn.lock" "yarn.lock" [cr_lib].
Definition cr_run zip arg := run cr_env (cr_opts arg) (start (cr_files zip) (fun _ => Some " null")).
Lemma cr_entries : EntriesOk cr_env.
Proof. intros path entries. cbn. unfold cr_stat. destruct (seqb path "e/composer.lock"); [discriminate|]. destruct (seqb path "e/yarn.lock"); discriminate. Qed.
Lemma cr_inputs n : In n ["e/composer.lock"; "e/yarn.lock"] -> inputs cr_env (cr_opts n) [("", n)] false.
Proof.
  intros I. apply in_found; [discriminate|]. assert (C : [("", n)] = map (fun p => ("", clean p)) [n] ++ []) by (destruct I as [<-|[<-|[]]]; reflexivity).
  rewrite C. change false with (false || false). apply (fa_arg cr_env "" n [] "" n); [left; destruct I as [<-|[<-|[]]]; auto|reflexivity| |constructor].
  apply fi_file. destruct I as [<-|[<-|[]]]; reflexivity.
Qed.
Lemma cr_mode zip arg : mode_of cr_env (cr_opts arg) (cr_files zip) Beside.
Proof. apply mo_beside; reflexivity. Qed.
Lemma cr_reads zip : Forall2 (reads cr_env (cr_opts "e/yarn.lock") (cr_files zip) Beside) (map as_arg [("", "e/yarn.lock")]) [Usable cr_lock (cr_config zip)].
Proof.
  constructor; [|constructor]. apply rd_ok.
  - apply cf_beside with []. destruct zip; vm_compute; reflexivity.
  - vm_compute. reflexivity.
Qed.
Lemma cr_uses zip l c d : uses cr_env (cr_opts "e/yarn.lock") (cr_files zip) l c d <-> l = cr_lock /\ c = cr_config zip /\ d = cr_db zip.
Proof.
  assert (IN := cr_inputs "e/yarn.lock" (or_intror (or_introl eq_refl))). split.
  - intros U. destruct (uses_in _ _ _ _ _ _ _ _ _ _ IN (cr_mode zip _) (cr_reads zip) U) as [[H|[]] A]. injection H as <- <-.
    split; [reflexivity|]. split; [reflexivity|]. inversion A as [m l1 c1 d1 N V|m l1 c1 d1 l0 c0 S|m l1 c1 d1 us l0 c0 S]; [|discriminate S|discriminate S].
    destruct V as [[_ [V|[]]]|[[V _]|[V _]]]; [now symmetry|discriminate V|discriminate V].
  - intros (-> & -> & ->). exists [("", "e/yarn.lock")], false, Beside, [Usable cr_lock (cr_config zip)].
    split; [exact IN|]. split; [apply cr_mode|]. split; [apply cr_reads|]. split; [now left|]. constructor; [discriminate|]. left. split; [reflexivity|now left].
Qed.
Lemma cr_nothing zip l c d : ~ uses cr_env (cr_opts "e/composer.lock") (cr_files zip) l c d.
Proof.
  intros (l1 & e1 & m1 & rs1 & I1 & M1 & R1 & U1 & _). destruct (inputs_unique _ _ _ _ _ _ (cr_inputs "e/composer.lock" (or_introl eq_refl)) I1) as [<- _].
  inversion R1 as [|x r y z R R']; subst. inversion R' as [|]; subst. inversion R as [C|c1 l1 e C P|c1 l1 C P]; subst; [destruct U1|destruct U1|vm_compute in P; discriminate P].
Qed.
Lemma cr_served : served (fun u b h => h = cr_post u b) (fun u h => h = cr_get u) cr_env.
Proof. intros k a pkgs. exact (api_executes isort (dec_osv by_rfc) cr_post cr_get a pkgs). Qed.
Lemma cr_bytes : parses_bytes cr_env by_dec cr_fls.
Proof.
  exists 9%nat, (fun _ => "err"), ["e/composer.lock"; "e/yarn.lock"]. split; [reflexivity|]. split; [|cbn; lia].
  intros p. unfold cr_fls. destruct (seqb_spec p "e/composer.lock") as [->|_]; [cbn; auto|]. destruct (seqb_spec p "e/yarn.lock") as [->|_]; [cbn; auto|]. intros H. now destruct H.
Qed.
Example C86_case : ComparesOk isort /\ parses_bytes cr_env by_dec cr_fls /\ served (fun u b h => h = cr_post u b) (fun u h => h = cr_get u) cr_env
  /\ (forall l c d, uses cr_env (cr_opts "e/yarn.lock") (cr_files true) l c d -> fits (cr_opts "e/yarn.lock") l /\ has_char "#" (dc_url d) = false)
  /\ fst (cr_run true "e/yarn.lock") = Panic /\ fst (cr_run false "e/yarn.lock") = Panic /\ fst (cr_run false "e/composer.lock") = Panic.
Proof.
  split; [exact isort_compares_ok|]. split; [exact cr_bytes|]. split; [exact cr_served|]. split.
  { intros l c d U. apply cr_uses in U as (-> & -> & ->). split; [split; [reflexivity|apply Z.leb_le; reflexivity]|reflexivity]. }
  split; [vm_compute; reflexivity|]. split; vm_compute; reflexivity.
Qed.
Example C86_lockfile_case : crash_reason cr_env (cr_opts "e/composer.lock") (cr_files true) (fun _ => None) (fun f path => crash_cause by_dec cr_fls path f)
  /\ e_impl cr_env ParseComposerLock "e/composer.lock" = Panic /\ config_found cr_env (cr_opts "e/composer.lock") (cr_files true) "e/composer.lock".
Proof.
  split; [|split; [vm_compute; reflexivity|]].
  - eapply (cr_lockfile _ _ _ _ _ [("", "e/composer.lock")] false "" "e/composer.lock" ParseComposerLock); [apply cr_inputs; now left|now left|vm_compute; reflexivity|].
    apply cc_null; [cbn; auto|]. exists " null ". split; [reflexivity|apply JsonGrammar.parse_iff; vm_compute; reflexivity].
  - right. right. split; [reflexivity|]. eexists. vm_compute. reflexivity.
Qed.
Example C86_unchanged_case : uses cr_env (cr_opts "e/yarn.lock") (cr_files true) cr_lock (cr_config true) (cr_db true)
  /\ says_unchanged cr_env (dc_url (cr_db true)) /\ own_cache cr_env (dc_url (cr_db true)) /\ useless (Some " null").
Proof.
  split; [now apply cr_uses|]. split; [do 3 eexists; reflexivity|]. split; [intros u H; exact H|].
  intros j J. apply JsonGrammar.parse_iff in J. vm_compute in J. now injection J as <-.
Qed.
Example C86_version_case : uses cr_env (cr_opts "e/yarn.lock") (cr_files false) cr_lock (cr_config false) by_db
  /\ must_hold cr_env (cr_opts "e/yarn.lock") (fun _ => None) by_db by_osv /\ trips num_sem by_osv cr_lib.
Proof.
  split; [now apply cr_uses|]. split.
  - apply st_dir; [reflexivity|]. exists (mkURL "/db" (fun x => x)), ["2024"; "x.json"]. split; [reflexivity|]. cbv zeta.
    change (path_join [trim_prefix "/db" "/"; ""]) with "db".
    exists by_text. split; [eapply ap_below; [now left|]; eapply ap_below; [now left|constructor]|]. split; [now exists "x"|vm_compute; reflexivity].
  - exists [], (mkAff (mkOPkg "lib" "npm") [] [mkRange "SEMVER" [mkEv "0" "" ""; mkEv "" "2.0" ""]]), [], (mkRange "SEMVER" [mkEv "0" "" ""; mkEv "" "2.0" ""]), [].
    split; [reflexivity|]. split; [intros b []|]. split; [now apply OsvProofs.ecosystems_equal_spec|]. split; [now apply OsvProofs.match_name_fun|]. split; [intros []|].
    split; [reflexivity|]. split; [now right|]. split; [discriminate|reflexivity].
Qed.
