(** C84: more advisories and more packages never hide a finding *)
From Verif Require Import GoStr GoStrFacts GoSort GoSortFacts GoMap Types Osv OsvSpec MemDB MemDBSpec Path Api ZipDB ZipSpec DirDB DirDBSpec DbConfig Configer Lockfile Csv Report ReportSpec Json Main MainSpec EndSpec EndProofs GrowSpec GrowProofs SemNum OsvExamples ConfigExamples MainExamples.

Theorem C84_kept : forall E E' O O' fs fs' cache cache', grown E O fs cache E' O' fs' cache' ->
  SorterOk (e_sort E) -> IterOk (e_iter E) -> EntriesOk E -> SorterOk (e_sort E') -> IterOk (e_iter E') -> EntriesOk E' ->
  checking O -> checking O' -> distinct_names E O fs -> distinct_names E' O' fs' ->
  forall code s code' s', run E O (start fs cache) = (Ok code, s) -> run E' O' (start fs' cache') = (Ok code', s') -> code' = 0%Z \/ code' = 1%Z ->
  forall ck row v, In ck (checks (s_trace s)) -> In row (rp_pkgs (ck_report ck)) -> In v (pv_vulns row ++ pv_ignored row) ->
  still_listed (s_trace s') (lf_path (rp_lock (ck_report ck))) (pv_pkg row) v.
Proof. exact kept. Qed.
Print Assumptions C84_kept.
Theorem C84_exit : forall E E' O O' fs fs' cache cache', grown E O fs cache E' O' fs' cache' ->
  SorterOk (e_sort E) -> IterOk (e_iter E) -> EntriesOk E -> SorterOk (e_sort E') -> IterOk (e_iter E') -> EntriesOk E' ->
  checking O -> checking O' -> distinct_names E O fs -> distinct_names E' O' fs' ->
  forall s code' s', run E O (start fs cache) = (Ok 1%Z, s) -> run E' O' (start fs' cache') = (Ok code', s') -> code' = 0%Z \/ code' = 1%Z ->
  (forall l c d, uses E' O' fs' l c d -> ignores_of O' c = []) -> code' = 1%Z.
Proof. exact kept_exit. Qed.
Print Assumptions C84_exit.

(** the npm archive with these entries, checked for e/yarn.lock with lib 1.0 and
    the packages [more] *)
Definition gr_impl (more : list Pkg) (f : ParserFn) (path : string) : PResult :=
  match f with ParseYarnLock => Ok (ex_pkg "1.0" :: more, None) | _ => Ok ([], Some "unreadable") end.
Definition gr_env (more : list Pkg) (entries : list (string * option string)) : Env :=
  mkEnv (mkWorld ex_parse_uri (fun s => if seqb s "zip" then Some entries else None) ex_dec (fun q => ZResp 200 "e" "today" (Some "zip")) (fun _ => NDir (Some [])))
    num_sem isort (fun _ l => l) (fun _ s => s) (fun _ => "err")
    (fun v => JObj [("id", JStr (o_id v))]) mx_stat (gr_impl more) (fun _ => None) (fun u => u) yj_dec yj_enc (fun _ => true) mx_api "v".
Definition gr_files (p : string) : fread := FNotExist.
Definition gr_opts (ignores : list string) : Opts := mkOpts false "" "" false false false false false false false false true false 1000 ignores ["e"].
Definition gr_cache : files := fun _ => None.
Definition gr_run more ignores entries := run (gr_env more entries) (gr_opts ignores) (start gr_files gr_cache).
Definition gr_other : Pkg := mkPkg "other" "2" "" "npm" "npm".
Definition gr_lock more : Lockfile := mkLF "e/yarn.lock" "yarn.lock" (ex_pkg "1.0" :: more).
Definition gr_config : Config := mkCfg "" [] [].
Definition gr_db := ecosystem_config "npm".
Lemma gr_inputs more es ig : inputs (gr_env more es) (gr_opts ig) [("", "e/yarn.lock")] false.
Proof.
  apply in_found; [discriminate|]. change [("", "e/yarn.lock")] with (map (fun p => ("", clean p)) ["e/yarn.lock"] ++ []).
  change false with (false || false). apply (fa_arg (gr_env more es) "" "e" [] "" "e"); [left; auto|reflexivity| |constructor].
  apply (fi_dir (gr_env more es) "e" "" [("yarn.lock", false)] [("yarn.lock", false)]); [reflexivity| | |repeat constructor].
  - apply sel_take; [|constructor]. split; [reflexivity|]. right. left. split; [reflexivity|]. apply ReportProofs.mem_iff. vm_compute. reflexivity.
  - apply Permutation_refl.
Qed.
Lemma gr_reads more es ig : In more [[]; [gr_other]] -> Forall2 (reads (gr_env more es) (gr_opts ig) gr_files Beside) (map as_arg [("", "e/yarn.lock")]) [Usable (gr_lock more) gr_config].
Proof.
  intros I. constructor; [|constructor]. apply rd_ok.
  - apply cf_beside with []. vm_compute; reflexivity.
  - destruct I as [<-|[<-|[]]]; vm_compute; reflexivity.
Qed.
Lemma gr_uses more es ig l c d : In more [[]; [gr_other]] -> (uses (gr_env more es) (gr_opts ig) gr_files l c d <-> l = gr_lock more /\ c = gr_config /\ d = gr_db).
Proof.
  intros I. assert (M : mode_of (gr_env more es) (gr_opts ig) gr_files Beside) by (apply mo_beside; reflexivity).
  assert (W : forall d, MainSpec.wanted (gr_opts ig) (gr_lock more) gr_config d <-> d = gr_db).
  { intros d'. split.
    - intros [[_ []]|[[N _]|[_ (p & P & _ & ->)]]]; [discriminate N|]. destruct I as [<-|[<-|[]]]; [destruct P as [<-|[]]|destruct P as [<-|[<-|[]]]]; reflexivity.
    - intros ->. right. right. split; [reflexivity|]. exists (ex_pkg "1.0"). split; [now left|]. split; [discriminate|reflexivity]. }
  split.
  - intros U. destruct (uses_in _ _ _ _ _ _ _ _ _ _ (gr_inputs more es ig) M (gr_reads more es ig I) U) as [[H|[]] A]. injection H as <- <-.
    split; [reflexivity|]. split; [reflexivity|]. inversion A as [m l1 c1 d1 N V|m l1 c1 d1 l0 c0 S|m l1 c1 d1 us l0 c0 S]; [now apply W| |]; discriminate S.
  - intros (-> & -> & ->). exists [("", "e/yarn.lock")], false, Beside, [Usable (gr_lock more) gr_config].
    split; [apply gr_inputs|]. split; [exact M|]. split; [now apply gr_reads|]. split; [now left|]. constructor; [discriminate|now apply W].
Qed.
Lemma gr_archive more es ig entries : archive (gr_env more es) (gr_opts ig) gr_cache gr_db entries <-> entries = es.
Proof.
  split.
  - intros (before & body & date & w & rq & C & F & U).
    assert (B : body = "zip"). { unfold fetch_zip in F. cbn [gr_opts o_offline w_answer gr_env e_world] in F.
      change (Z.eqb 200 304) with false in F. change (negb (Z.eqb 200 200)) with false in F. cbv beta iota zeta in F. congruence. }
    subst body. cbn in U. now injection U as <-.
  - intros ->. exists None, "zip", "today". do 2 eexists. split; [now left|]. split; [vm_compute; reflexivity|reflexivity].
Qed.
Lemma gr_holds more es more' es' ig ig' o : incl es es' -> may_hold (gr_env more es) (gr_opts ig) gr_cache gr_db o -> must_hold (gr_env more' es') (gr_opts ig') gr_cache gr_db o.
Proof.
  intros I H. destruct H as [entries T A H|T H]; [|discriminate T]. apply st_zip; [reflexivity|]. intros entries' A'. apply gr_archive in A, A'. subst.
  destruct H as (e & J & H). exists e. auto.
Qed.
Definition gr_old : list (string * option string) := [("a.json", Some "good"); ("b.json", Some "bad")].
Definition gr_new : list (string * option string) := [("0.json", Some "alias"); ("a.json", Some "good"); ("b.json", Some "bad")].
Lemma gr_may more es ig o : incl es gr_new -> may_hold (gr_env more es) (gr_opts ig) gr_cache gr_db o -> o = ex_osv \/ o = ex_alias.
Proof.
  intros I H. destruct H as [entries T A H|T H]; [|discriminate T]. apply gr_archive in A. subst. destruct H as (e & J & _ & _ & b & B & K). apply I in J.
  destruct J as [<-|[<-|[<-|[]]]]; cbn in B; injection B as <-; vm_compute in K; try discriminate K; injection K as <-; auto.
Qed.
Lemma gr_grown ig ig' : grown (gr_env [] gr_old) (gr_opts ig) gr_files gr_cache (gr_env [gr_other] gr_new) (gr_opts ig') gr_files gr_cache.
Proof.
  split; [reflexivity|]. intros l c d U. apply gr_uses in U as (-> & -> & ->); [|now left]. split; [discriminate|]. split; [|split].
  - exists (gr_lock [gr_other]), gr_config. split; [apply gr_uses; [right; now left|auto]|]. split; [reflexivity|]. intros p [<-|[]]. now left.
  - intros o. apply gr_holds. unfold gr_new. now apply incl_tl.
  - intros o p M [<-|[]]. split; [reflexivity|]. apply gr_may in M; [|unfold gr_new; now apply incl_tl].
    assert (W : Forall (wf_osv num_sem "npm") [ex_osv; ex_alias]).
    { apply Forall_forall. intros x [<-|[<-|[]]]; [exact (proj1 (Forall_forall _ _) ex_wf_all ex_osv (or_introl eq_refl))|]. intros a r [<-|[]] []. }
    destruct (ex_checkable "1.0" eq_refl) as [V P _]. split; auto. inversion W as [|x y W1 W2]; inversion W2; subst. destruct M as [->| ->]; auto.
Qed.
Lemma gr_names more es ig : In more [[]; [gr_other]] -> distinct_names (gr_env more es) (gr_opts ig) gr_files.
Proof. intros I l c d U. apply gr_uses in U as (-> & -> & ->); auto. Qed.
(** the hypotheses are met, and both runs find something *)
Example C84_case : grown (gr_env [] gr_old) (gr_opts []) gr_files gr_cache (gr_env [gr_other] gr_new) (gr_opts []) gr_files gr_cache
  /\ distinct_names (gr_env [] gr_old) (gr_opts []) gr_files /\ distinct_names (gr_env [gr_other] gr_new) (gr_opts []) gr_files
  /\ fst (gr_run [] [] gr_old) = Ok 1%Z /\ fst (gr_run [gr_other] [] gr_new) = Ok 1%Z
  /\ (forall l c d, uses (gr_env [gr_other] gr_new) (gr_opts []) gr_files l c d -> ignores_of (gr_opts []) c = []).
Proof.
  split; [apply gr_grown|]. split; [apply gr_names; now left|]. split; [apply gr_names; right; now left|].
  split; [vm_compute; reflexivity|]. split; [vm_compute; reflexivity|]. intros l c d U. apply gr_uses in U as (-> & -> & ->); [reflexivity|right; now left].
Qed.
(** with ignores the exit code can fall: an advisory is added whose ID is
    ignored and which shares an alias with the one found; it stands for both,
    though neither the ID nor an alias of the one found is ignored *)
Theorem C84_exit_refuted : exists E E' O fs cache s s' o, grown E O fs cache E' O fs cache
  /\ SorterOk (e_sort E) /\ IterOk (e_iter E) /\ EntriesOk E /\ SorterOk (e_sort E') /\ IterOk (e_iter E') /\ EntriesOk E' /\ checking O
  /\ distinct_names E O fs /\ distinct_names E' O fs
  /\ run E O (start fs cache) = (Ok 1%Z, s) /\ run E' O (start fs cache) = (Ok 0%Z, s')
  /\ (exists l c d, uses E O fs l c d /\ may_hold E O cache d o /\ forall i, In i (ignores_of O c) -> i <> o_id o /\ ~ In i (o_aliases o))
  /\ (forall ck row v, In ck (checks (s_trace s)) -> In row (rp_pkgs (ck_report ck)) -> In v (pv_vulns row) -> o_id v = o_id o).
Proof.
  exists (gr_env [] gr_old), (gr_env [gr_other] gr_new), (gr_opts ["OSV-2"]), gr_files, gr_cache, (snd (gr_run [] ["OSV-2"] gr_old)), (snd (gr_run [gr_other] ["OSV-2"] gr_new)), ex_osv.
  split; [apply gr_grown|]. split; [exact isort_ok|]. split; [exact mx_iter|]. split; [exact mx_entries|]. split; [exact isort_ok|]. split; [exact mx_iter|]. split; [exact mx_entries|].
  split; [repeat split|]. split; [apply gr_names; now left|]. split; [apply gr_names; right; now left|].
  split; [unfold gr_run; vm_compute; reflexivity|]. split; [unfold gr_run; vm_compute; reflexivity|]. split.
  - exists (gr_lock []), gr_config, gr_db. split; [apply gr_uses; [now left|auto]|]. split.
    + apply mh_zip with gr_old; [reflexivity|now apply gr_archive|]. exists ("a.json", Some "good"). split; [now left|]. split; [now exists "a.json"|]. split; [now exists "a"|]. exists "good". auto.
    + intros i [<-|[]]. split; [discriminate|]. intros [X|[]]; discriminate X.
  - assert (X : forallb (fun ck => forallb (fun row => forallb (fun v => seqb (o_id v) "GHSA-1") (pv_vulns row)) (rp_pkgs (ck_report ck))) (checks (s_trace (snd (gr_run [] ["OSV-2"] gr_old)))) = true) by (vm_compute; reflexivity).
    intros ck row v I1 I2 I3. rewrite forallb_forall in X. specialize (X ck I1). rewrite forallb_forall in X. specialize (X row I2). rewrite forallb_forall in X. specialize (X v I3). cbv beta in X. apply seqb_eq in X. exact X.
Qed.
Print Assumptions C84_exit_refuted.
