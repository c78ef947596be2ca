(** C85: from the bytes of lockfiles and advisories to the report *)
From Coq Require Import QArith.
From Verif Require Import GoStr GoStrFacts GoSort GoSortFacts GoMap Types Json JsonSpec Osv OsvSpec MemDB MemDBSpec Path Scan LockIO Commit CommitSpec CommitProofs LockSpec YarnLock YarnSpec YarnProofs ListLocks Lockfile Csv Parsers Api ZipDB ZipSpec DirDB DirDBSpec DbConfig Configer OsvJson OsvJsonSpec OsvJsonProofs Report ReportSpec Main MainSpec EndSpec EndProofs FormatSpec BytesSpec BytesProofs SemNum OsvExamples ConfigExamples MainExamples PropsListLocks.
From Verif Require JsonGrammar.

(** if a run exits 0 or 1, every advisory that the text of a file of a database
    in use says, that is not withdrawn and that affects a package that the text
    of the lockfile lists, is accounted for in a report *)
Theorem C85_accounted : forall E O D fls rfc3339, SorterOk (e_sort E) -> IterOk (e_iter E) -> EntriesOk E -> reads_bytes E D fls rfc3339 ->
  forall fs cache code s', checking O -> distinct_names E O fs -> run E O (start fs cache) = (Ok code, s') -> code = 0%Z \/ code = 1%Z ->
  forall l c d p o, uses E O fs l c d -> bytes_list D fls l p -> bytes_hold E O cache rfc3339 d o -> o_withdrawn o = None ->
  checkable (e_sem E) [o] p -> osv_affects (e_sem E) o p -> accounts (s_trace s') l p (ignores_of O c) o.
Proof. exact bytes_accounted. Qed.
Print Assumptions C85_accounted.
(** so exit code 0 means that each such advisory is ignored *)
Theorem C85_clean : forall E O D fls rfc3339, SorterOk (e_sort E) -> IterOk (e_iter E) -> EntriesOk E -> reads_bytes E D fls rfc3339 ->
  forall fs cache s', checking O -> distinct_names E O fs -> run E O (start fs cache) = (Ok 0%Z, s') ->
  forall l c d p o, uses E O fs l c d -> bytes_list D fls l p -> bytes_hold E O cache rfc3339 d o -> o_withdrawn o = None ->
  checkable (e_sem E) [o] p -> osv_affects (e_sem E) o p ->
  exists r g, alike o r /\ (g = r \/ related g r) /\ In (o_id g) (ignores_of O c).
Proof. exact bytes_clean. Qed.
Print Assumptions C85_clean.
(** whatever is reported was said by a text, for a package that the lockfile
    lists (all of them for most kinds of lockfiles: [always_clear]); any
    yarn.lock it is reported for has a block for the package *)
Theorem C85_every : forall E O D fls rfc3339, SorterOk (e_sort E) -> IterOk (e_iter E) -> EntriesOk E -> reads_bytes E D fls rfc3339 ->
  forall fs cache code s', checking O -> distinct_names E O fs -> run E O (start fs cache) = (Ok code, s') ->
  forall ck row v, In ck (checks (s_trace s')) -> In row (rp_pkgs (ck_report ck)) -> In v (pv_vulns row ++ pv_ignored row) ->
  (bytes_clear D fls (rp_lock (ck_report ck)) -> bytes_list D fls (rp_lock (ck_report ck)) (pv_pkg row))
  /\ (lf_as (rp_lock (ck_report ck)) = "yarn.lock" ->
     exists ls bs b, file_lines fls (lf_path (rp_lock (ck_report ck))) ls /\ yarn_blocks ls bs /\ In b bs /\ block_makes (Parsers.dc_url D) b (Some (pv_pkg row)))
  /\ exists c d, uses E O fs (rp_lock (ck_report ck)) c d
       /\ (api_says E d (rp_lock (ck_report ck)) (pv_pkg row) v
           \/ exists o, osv_same o v /\ bytes_gave E O cache rfc3339 d o /\ o_withdrawn o = None /\ (checkable (e_sem E) [o] (pv_pkg row) -> osv_affects (e_sem E) o (pv_pkg row))).
Proof. exact bytes_every. Qed.
Print Assumptions C85_every.

(** a lockfile that is parsed has the packages its bytes list, and no others if
    the bytes say clearly what they list *)
Theorem C85_parse : forall D it fls depth S text path parse_as lf, IterOk it -> SorterOk S ->
  Lockfile.parse S (impl D it fls depth text) path parse_as = Ok (lf, None) ->
  (forall p, bytes_list D fls lf p -> In p (lf_pkgs lf)) /\ (bytes_clear D fls lf -> forall p, In p (lf_pkgs lf) -> bytes_list D fls lf p).
Proof. exact parse_bytes. Qed.
Print Assumptions C85_parse.

(** a yarn.lock and a directory with one advisory, as texts *)
Definition by_yarn : string :=
"# yarn lockfile v1

lib@^1.0.0, lib@~1.0.0:
  version ""1.0""
  resolved ""https://r/lib-1.0.tgz""

""@s/other@*"":
  version ""2.0""
".
Definition by_text : string :=
"{ ""ID"": ""GHSA-1"", ""aliases"": [""CVE-1""], ""severity"": [{""type"": ""x""}],
   ""affected"": [{""package"": {""name"": ""lib"", ""ecosystem"": ""npm""}, ""ranges"": [{""type"": ""SEMVER"", ""events"": [{""introduced"": ""0""}, {""fixed"": ""2.0""}]}]}] }".
Definition by_osv : OSV := mkOSV "GHSA-1" ["CVE-1"] "" "" "" None "" [mkAff (mkOPkg "lib" "npm") [] [mkRange "SEMVER" [mkEv "0" "" ""; mkEv "" "2.0" ""]]].
Definition by_rfc (s : string) : option string := Some s.
Definition by_dec : Decoders := mkDecoders (fun _ => None) (fun _ => None) (fun _ => None) (fun _ => None) (fun _ => None) (fun _ => None) (fun _ => None)
  (fun _ => None) (fun _ => None) (fun _ _ => None) (fun s => s) (fun _ => None).
Definition by_fls (p : string) : txt := if seqb p "e/yarn.lock" then Text by_yarn false else Gone.
Definition by_it : Iter := fun _ l => l.
Definition by_tree (p : string) : node := if seqb p "db" then NDir (Some [("2024", NDir (Some [("x.json", NFile (Some by_text)); ("y.txt", NFile None)]))]) else NGone.
Definition by_env : Env := mkEnv (mkWorld ex_parse_uri (fun _ => None) (dec_osv by_rfc) (fun _ => ZFailed) by_tree) num_sem isort by_it (fun _ s => s) (fun _ => "err")
  (fun v => JObj [("id", JStr (o_id v))]) mx_stat (impl by_dec by_it by_fls 9 (fun _ => "err")) (fun _ => None) (fun u => u) yj_dec yj_enc (fun _ => true) mx_api "v".
Definition by_raws : list raw_db := [mkRD "file:/db" "local" "" ""].
Definition by_files (p : string) : fread := if seqb p "e/.osv-detector.yml" then FOk (yj_enc (mkRC [] by_raws)) else FNotExist.
Definition by_opts (ignores : list string) : Opts := mkOpts false "" "" false false false false false false false false false false 1000 ignores ["e"].
Definition by_run ignores := run by_env (by_opts ignores) (start by_files (fun _ => None)).
Definition by_other : Pkg := mkPkg "@s/other" "2.0" "" "npm" "npm".
Definition by_lib : Pkg := mkPkg "lib" "1.0" "" "npm" "npm".
Definition by_lock : Lockfile := mkLF "e/yarn.lock" "yarn.lock" [by_other; by_lib].
Definition by_db : DBConfig := mkDC "local" "dir" "file:/db" "".
Definition by_config : Config := mkCfg "e/.osv-detector.yml" [] [by_db].
Lemma by_inputs ig : inputs by_env (by_opts ig) [("", "e/yarn.lock")] false.
Proof.
  apply in_found; [discriminate|]. change [("", "e/yarn.lock")] with (map (fun p => ("", clean p)) ["e/yarn.lock"] ++ []).
  change false with (false || false). apply (fa_arg by_env "" "e" [] "" "e"); [left; auto|reflexivity| |constructor].
  apply (fi_dir by_env "e" "" [("yarn.lock", false)] [("yarn.lock", false)]); [reflexivity| | |repeat constructor].
  - apply sel_take; [|constructor]. split; [reflexivity|]. right. left. split; [reflexivity|]. apply ReportProofs.mem_iff. vm_compute. reflexivity.
  - apply Permutation_refl.
Qed.
Lemma by_reads ig : Forall2 (reads by_env (by_opts ig) by_files Beside) (map as_arg [("", "e/yarn.lock")]) [Usable by_lock by_config].
Proof.
  constructor; [|constructor]. apply rd_ok.
  - apply cf_beside with []. vm_compute; reflexivity.
  - vm_compute. reflexivity.
Qed.
Lemma by_uses ig l c d : uses by_env (by_opts ig) by_files l c d <-> l = by_lock /\ c = by_config /\ d = by_db.
Proof.
  assert (M : mode_of by_env (by_opts ig) by_files Beside) by (apply mo_beside; reflexivity). split.
  - intros U. destruct (uses_in _ _ _ _ _ _ _ _ _ _ (by_inputs ig) M (by_reads ig) U) as [[H|[]] A]. injection H as <- <-.
    split; [reflexivity|]. split; [reflexivity|]. inversion A as [m l1 c1 d1 N V|m l1 c1 d1 l0 c0 S|m l1 c1 d1 us l0 c0 S]; [|discriminate S|discriminate S].
    destruct V as [[_ [V|[]]]|[[V _]|[V _]]]; [now symmetry|discriminate V|discriminate V].
  - intros (-> & -> & ->). exists [("", "e/yarn.lock")], false, Beside, [Usable by_lock by_config].
    split; [apply by_inputs|]. split; [exact M|]. split; [apply by_reads|]. split; [now left|]. constructor; [discriminate|]. left. split; [reflexivity|now left].
Qed.
Lemma by_text_says : advisory_text by_rfc by_text by_osv.
Proof.
  assert (R : dec_osv by_rfc by_text = (by_osv, false)) by (vm_compute; reflexivity).
  destruct (dec_only _ _ _ R) as (j & P & D). exists j. split; [now apply JsonGrammar.parse_iff|]. apply D.
  assert (Some j = Json.parse by_text) as E by now rewrite P. vm_compute in E. injection E as ->.
  cbn [no_repeats fold_right map fst snd]. repeat split; try exact Logic.I.
  all: repeat (constructor; [intros I; apply GoStrFacts.mem_iff in I; vm_compute in I; discriminate I|]); constructor.
Qed.
Definition by_block : list string := ["lib@^1.0.0, lib@~1.0.0:"; "  version ""1.0"""; "  resolved ""https://r/lib-1.0.tgz"""].
Lemma by_listed : bytes_list by_dec by_fls by_lock by_lib.
Proof.
  refine (fl_yarn by_dec by_fls "e/yarn.lock" _ _ "lib@^1.0.0, lib@~1.0.0:" (tl by_block) _ _ "https://r/lib-1.0.tgz" _ _ (group_blocks _) _ _ _ _ _ _).
  - exists by_yarn; split; [reflexivity|vm_compute; reflexivity].
  - vm_compute; auto.
  - intros [X|(q & X)]; [discriminate X|].
    assert (Y : has_suffix ("lib@^1.0.0, lib@~1.0.0:") ("@workspace:." +s+ quote +s+ ":") = true) by (rewrite X; apply has_suffix_iff; now exists q). vm_compute in Y. discriminate Y.
  - exists "", "lib@^1.0.0", ", lib@~1.0.0:". split; [now left|]. split; [reflexivity|]. split; [right; now exists " lib@~1.0.0:"|]. split; [reflexivity|].
    apply (en_range "lib" "^1.0.0"); [split; [split; [discriminate|now left]|split; reflexivity]|]. intros t X. discriminate.
  - exact (first_group_in version_line _ by_block version_sound version_complete).
  - exact (first_group_in resolution_line _ by_block resolution_sound resolution_complete).
  - exact (extract_spec (Parsers.dc_url by_dec) "https://r/lib-1.0.tgz").
Qed.
Example C85_case : reads_bytes by_env by_dec by_fls by_rfc /\ distinct_names by_env (by_opts []) by_files
  /\ uses by_env (by_opts []) by_files by_lock by_config by_db /\ bytes_list by_dec by_fls by_lock by_lib
  /\ bytes_hold by_env (by_opts []) (fun _ => None) by_rfc by_db by_osv
  /\ checkable num_sem [by_osv] by_lib /\ osv_affects num_sem by_osv by_lib
  /\ fst (by_run []) = Ok 1%Z /\ fst (by_run ["GHSA-1"]) = Ok 0%Z.
Proof.
  split; [split; [exists 9%nat, (fun _ => "err"); reflexivity|reflexivity]|]. split; [intros l c d U; apply by_uses in U as (-> & -> & ->); reflexivity|].
  split; [now apply by_uses|]. split; [exact by_listed|]. split.
  { apply (bh_dir _ _ _ _ _ _ (mkURL "/db" (fun x => x)) ["2024"; "x.json"] by_text); [reflexivity|reflexivity| |exact by_text_says].
    cbv zeta. change (path_join [trim_prefix "/db" "/"; ""]) with "db". split; [|now exists "x"]. eapply ap_below; [now left|]. eapply ap_below; [now left|constructor]. }
  assert (C : checkable num_sem [by_osv] by_lib).
  { split; [apply num_order|reflexivity|]. constructor; [|constructor]. intros a r [<-|[]] [<-|[]]. split; [split|].
    - apply Forall_forall. intros e [<-|[<-|[]]]; split; cbn; auto.
    - unfold one_zero. cbn. lia.
    - intros i x [Hi (e & [<-|[<-|[]]] & Ei)] H0 _; cbn in Ei; subst i; [now elim H0|now elim Hi].
    - intros e v [<-|[<-|[]]] Hv; cbn in Hv; destruct Hv as [[<-|[]]|[X _]]; try discriminate; reflexivity. }
  split; [exact C|]. split; [|split; vm_compute; reflexivity].
  destruct C as [V P W]. inversion W; subst. destruct (OsvProofs.is_affected_spec isort num_sem by_osv by_lib isort_ok V H1 P) as (b & v & Q & _ & B). apply B.
  assert (Q' : match is_affected isort num_sem by_osv by_lib with Ok (b, _) => b | Panic => false end = true) by (vm_compute; reflexivity). now rewrite Q in Q'.
Qed.

(** a Pipfile.lock and a Cargo.lock (of which the decoder gives two packages) *)
Definition by_pip : string := "{""_meta"": {}, ""default"": {""Requests"": {""version"": ""==2.0""}}, ""develop"": {""local"": {}}}".
Definition by_dec2 : Decoders := mkDecoders (fun _ => Some [mkCargo "a" "1.0"; mkCargo "a" "2.0"]) (fun _ => None) (fun _ => None) (fun _ => None) (fun _ => None) (fun _ => None) (fun _ => None)
  (fun _ => None) (fun _ => None) (fun _ _ => None) (fun s => s) (fun _ => None).
Definition by_fls2 (p : string) : txt := if seqb p "p/Pipfile.lock" then Text by_pip false else Text "" false.
Example C85_parse_case :
  (exists lf, Lockfile.parse isort (impl by_dec2 by_it by_fls2 9 (fun _ => "err")) "p/Pipfile.lock" "" = Ok (lf, None) /\ bytes_clear by_dec2 by_fls2 lf
    /\ lf_pkgs lf = [mkPkg "Requests" "2.0" "" "PyPI" "PyPI"])
  /\ exists lf, Lockfile.parse isort (impl by_dec2 by_it by_fls2 9 (fun _ => "err")) "p/Cargo.lock" "" = Ok (lf, None) /\ bytes_clear by_dec2 by_fls2 lf
    /\ bytes_list by_dec2 by_fls2 lf (mkPkg "a" "1.0" "" "crates.io" "crates.io").
Proof.
  split.
  - eexists. split; [vm_compute; reflexivity|]. split; [|reflexivity]. apply (fc_pipenv _ _ _ [("Requests", "==2.0"); ("local", "")]).
    exists (JObj [("_meta", JObj []); ("default", JObj [("Requests", JObj [("version", JStr "==2.0")])]); ("develop", JObj [("local", JObj [])])]), [("Requests", "==2.0")], [("local", "")].
    split; [exists by_pip; split; [reflexivity|apply JsonGrammar.parse_iff; vm_compute; reflexivity]|]. split; [|split; [reflexivity|intros p [<-|[]]; reflexivity]].
    do 2 eexists. split; [eexists; split; [reflexivity|in_shape]|]. split; (eexists; split; [reflexivity|]; split; [repeat constructor; intros []|]; constructor; [|constructor]; split; [reflexivity|]).
    + exists [("version", JStr "==2.0")]. split; [now left|]. eexists. split; [reflexivity|in_shape].
    + exists []. split; [now right|]. eexists. split; [reflexivity|in_shape].
  - eexists. split; [vm_compute; reflexivity|]. split; [apply fc_always; cbn; auto 12|]. eapply fl_cargo; [exists ""; split; reflexivity|now left|constructor].
Qed.
