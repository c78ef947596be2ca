(** Properties C01-C13: advisory matching and file-based databases.
    S ranges over every sorting function meeting sort.Slice's contract, sem
    over every version library. *)
From Verif Require Import GoStr GoStrFacts GoSort GoSortFacts Utf8 Types Osv OsvSpec OsvProofs MemDB MemDBSpec MemDBProofs
  Describe DescribeSpec DescribeProofs SemNum OsvExamples.

(** C01 *)
Theorem C01_range_semantics : forall S sem r pkg,
  SorterOk S -> VersionOrder (sem_cmp sem (p_cmp pkg)) ->
  version_typed r -> wf_range sem (p_cmp pkg) r -> sem_ok sem (p_cmp pkg) (p_version pkg) = true ->
  exists b r', contains_version S sem r pkg = Ok (b, r')
    /\ range_same r r'
    /\ (b = true <-> in_range (sem_cmp sem (p_cmp pkg)) (r_events r) (p_version pkg)).
Proof. exact contains_version_spec. Qed.
Print Assumptions C01_range_semantics.
Example C01_hypotheses_met :
  SorterOk isort /\ VersionOrder (sem_cmp num_sem "npm") /\ version_typed ex_range /\ wf_range num_sem "npm" ex_range
  /\ sem_ok num_sem "npm" "2.1" = true
  /\ (exists r', contains_version isort num_sem ex_range (ex_pkg "2.1") = Ok (true, r'))
  /\ (exists r', contains_version isort num_sem ex_range (ex_pkg "1.5") = Ok (false, r')).
Proof.
  split; [exact isort_ok|]. split; [apply num_order|]. split; [now right|]. split; [exact ex_wf_range|].
  split; [reflexivity|]. split; eexists; vm_compute; reflexivity.
Qed.

(** C02: any two orders of the events, any two sorting algorithms *)
Theorem C02_event_order_irrelevant : forall S S' sem r r' pkg b1 b2 r1 r2,
  SorterOk S -> SorterOk S' -> VersionOrder (sem_cmp sem (p_cmp pkg)) ->
  range_same r r' -> wf_events (sem_cmp sem (p_cmp pkg)) (r_events r) ->
  contains_version S sem r pkg = Ok (b1, r1) -> contains_version S' sem r' pkg = Ok (b2, r2) -> b1 = b2.
Proof. exact contains_version_order. Qed.
Print Assumptions C02_event_order_irrelevant.
Example C02_hypotheses_met :
  range_same ex_range (mkRange "SEMVER" (rev ex_events))
  /\ (exists r1, contains_version isort num_sem ex_range (ex_pkg "2.5") = Ok (true, r1))
  /\ (exists r2, contains_version isort num_sem (mkRange "SEMVER" (rev ex_events)) (ex_pkg "2.5") = Ok (true, r2)).
Proof. split; [split; [reflexivity|apply Permutation_rev]|]. split; eexists; vm_compute; reflexivity. Qed.

(** checking leaves the advisory unchanged up to the order of its events *)
Theorem C02_check_only_reorders : forall S sem o pkg b o',
  SorterOk S -> is_affected S sem o pkg = Ok (b, o') -> osv_same o o'.
Proof. exact is_affected_frame. Qed.
Print Assumptions C02_check_only_reorders.

(** without [no_ties] the verdict depends on the order the events are listed in *)
Theorem C02_ties_refuted : exists r r' pkg r1 r2,
  range_same r r' /\ version_typed r /\ SorterOk isort
  /\ contains_version isort num_sem r pkg = Ok (true, r1)
  /\ contains_version isort num_sem r' pkg = Ok (false, r2).
Proof.
  exists (mkRange "SEMVER" [mkEv "" "1.0" ""; mkEv "1.0" "" ""]),
         (mkRange "SEMVER" [mkEv "1.0" "" ""; mkEv "" "1.0" ""]), (ex_pkg "1.0").
  eexists _, _. split; [split; [reflexivity|apply perm_swap]|].
  split; [now right|]. split; [exact isort_ok|]. split; vm_compute; reflexivity.
Qed.
Print Assumptions C02_ties_refuted.

(** C03 *)
Theorem C03_honoured_ranges : forall S sem rs pkg,
  SorterOk S -> VersionOrder (sem_cmp sem (p_cmp pkg)) ->
  Forall (wf_range sem (p_cmp pkg)) rs -> sem_ok sem (p_cmp pkg) (p_version pkg) = true ->
  exists b rs', affects_version S sem rs pkg = Ok (b, rs')
    /\ Forall2 range_same rs rs'
    /\ (b = true <-> ranges_cover (sem_cmp sem (p_cmp pkg)) rs (p_version pkg)).
Proof. exact affects_version_spec. Qed.
Print Assumptions C03_honoured_ranges.
Example C03_hypotheses_met : Forall (wf_range num_sem "npm") [ex_range; ex_range]
  /\ ranges_cover (sem_cmp num_sem "npm") [ex_range; ex_git] "0.5".
Proof.
  split; [repeat apply Forall_cons; try apply Forall_nil; exact ex_wf_range|].
  exists [], ex_range, [ex_git]. split; [reflexivity|]. split; [constructor|]. split; [now right|].
  destruct (contains_version_spec isort num_sem ex_range (ex_pkg "0.5") isort_ok (num_order _) (or_intror eq_refl) ex_wf_range eq_refl)
    as (b & r' & E & _ & H). apply H. vm_compute in E. congruence.
Qed.

(** the documented rule, that any ECOSYSTEM/SEMVER range suffices, fails *)
Theorem C03_any_range_refuted : exists rs r pkg,
  In r rs /\ version_typed r /\ wf_range num_sem (p_cmp pkg) r
  /\ in_range (sem_cmp num_sem (p_cmp pkg)) (r_events r) (p_version pkg)
  /\ affects_version isort num_sem rs pkg = Ok (false, rs).
Proof.
  exists [ex_git; ex_range], ex_range, (ex_pkg "0.5").
  split; [right; now left|]. split; [now right|]. split; [exact ex_wf_range|]. split; [|vm_compute; reflexivity].
  destruct (contains_version_spec isort num_sem ex_range (ex_pkg "0.5") isort_ok (num_order _) (or_intror eq_refl) ex_wf_range eq_refl)
    as (b & r' & E & _ & H). apply H. vm_compute in E. congruence.
Qed.
Print Assumptions C03_any_range_refuted.

(** C04 *)
Theorem C04_is_affected : forall S sem o pkg,
  SorterOk S -> VersionOrder (sem_cmp sem (p_cmp pkg)) ->
  wf_osv sem (p_cmp pkg) o -> sem_ok sem (p_cmp pkg) (p_version pkg) = true ->
  exists b o', is_affected S sem o pkg = Ok (b, o')
    /\ osv_same o o' /\ (b = true <-> exists a, In a (o_affected o) /\ entry_affects sem a pkg).
Proof. exact is_affected_spec. Qed.
Print Assumptions C04_is_affected.
Example C04_hypotheses_met : wf_osv num_sem "npm" ex_osv
  /\ (exists o', is_affected isort num_sem ex_osv (ex_pkg "3.0") = Ok (true, o'))
  /\ (exists o', is_affected isort num_sem ex_osv (ex_pkg "4.0") = Ok (false, o'))
  /\ (exists o', is_affected isort num_sem ex_osv (ex_pkg "") = Ok (true, o')).
Proof.
  split; [exact (proj1 (Forall_forall _ _) ex_wf_all ex_osv (or_introl eq_refl))|].
  split; [|split]; eexists; vm_compute; reflexivity.
Qed.

(** C05 *)
Theorem C05_ecosystem_suffix : forall a b,
  (ecosystems_equal a b = true <-> same_ecosystem a b)
  /\ ecosystems_equal a a = true /\ ecosystems_equal a b = ecosystems_equal b a.
Proof.
  exact (fun a b => conj (ecosystems_equal_spec a b)
    (conj (proj2 (ecosystems_equal_spec a a) (same_ecosystem_refl a))
          (proj2 (eq_iff_eq_true _ _) (iff_trans (ecosystems_equal_spec a b)
            (iff_trans (conj (same_ecosystem_sym a b) (same_ecosystem_sym b a)) (iff_sym (ecosystems_equal_spec b a))))))).
Qed.
Print Assumptions C05_ecosystem_suffix.
Example C05_cases : ecosystems_equal "Alpine:v3.10" "Alpine" = true /\ ecosystems_equal "Alpine:v3.10" "Alpine:v3.11" = false
  /\ ecosystems_equal "Alpine:v3.10" "Alpine:v3.10" = true /\ ecosystems_equal "npm" "Alpine" = false.
Proof. vm_compute. auto. Qed.
(** it is not transitive: a suffix-less ecosystem equals every suffixed one *)
Theorem C05_transitivity_refuted : exists a b c,
  ecosystems_equal a b = true /\ ecosystems_equal b c = true /\ ecosystems_equal a c = false.
Proof. exists "Alpine:v3.10", "Alpine", "Alpine:v3.11". vm_compute. auto. Qed.
Print Assumptions C05_transitivity_refuted.

(** C06 (its requirements.txt half is in PropsRequirements) *)
Theorem C06_normalised_name : forall p, match_name p (normalized_name p).
Proof. exact normalized_name_spec. Qed.
Print Assumptions C06_normalised_name.
Theorem C06_pep503_idempotent : forall s, pep503 (pep503 s) = pep503 s.
Proof. exact pep503_idem. Qed.
Print Assumptions C06_pep503_idempotent.
Theorem C06_pypi_names_match : forall name name',
  normalized_name (mkOPkg name "PyPI") = normalized_name (mkOPkg name' "PyPI") <-> pep503 name = pep503 name'.
Proof. exact (fun n n' => pypi_match _ _ n n' eq_refl eq_refl). Qed.
Print Assumptions C06_pypi_names_match.
Example C06_cases : normalized_name (mkOPkg "My_.-Lib" "PyPI") = "my-lib"
  /\ normalized_name (mkOPkg "My_.-Lib" "PyPI:x") = "my-lib" /\ normalized_name (mkOPkg "My_.-Lib" "npm") = "My_.-Lib".
Proof. vm_compute. auto. Qed.

(** C07 *)
Theorem C07_check_sound_complete : forall S sem names os db pkg,
  SorterOk S -> checkable sem os pkg -> history S sem (load_all names os) db ->
  names = [] \/ In (p_name pkg) names -> has_char ":" (p_eco pkg) = false ->
  exists vs db', check S sem db [pkg] = Ok ([vs], db')
    /\ (forall v, In v vs -> exists o, In o os /\ osv_same o v /\ o_withdrawn o = None /\ osv_affects sem o pkg)
    /\ (forall o, In o os -> o_withdrawn o = None -> osv_affects sem o pkg ->
          exists v, In v vs /\ (osv_same o v \/ related v o)).
Proof. exact c07_check_one. Qed.
Print Assumptions C07_check_sound_complete.
Example C07_hypotheses_met :
  checkable num_sem ex_all (ex_pkg "1.0") /\ has_char ":" "npm" = false
  /\ (exists vs db', check isort num_sem (load_all [] ex_all) [ex_pkg "1.0"] = Ok ([vs], db') /\ map o_id vs = ["GHSA-1"])
  /\ (exists vs db', check isort num_sem (load_all ["lib"] ex_all) [ex_pkg "4.0"] = Ok ([vs], db') /\ vs = []).
Proof.
  split; [now apply ex_checkable|]. split; [reflexivity|].
  split; eexists _, _; split; vm_compute; reflexivity.
Qed.

(** packages whose ecosystem carries a suffix are never reported, although
    IsAffected holds for them *)
Theorem C07_suffixed_never_reported : forall S sem names os db pkg base suf,
  SorterOk S -> history S sem (load_all names os) db -> p_eco pkg = base +s+ ":" +s+ suf ->
  has_char ":" base = false -> has_char "-" base = false ->
  check S sem db [pkg] = Ok ([[]], db).
Proof. exact c07_suffixed. Qed.
Print Assumptions C07_suffixed_never_reported.
Theorem C07_suffixed_complete_refuted : exists os o pkg,
  In o os /\ o_withdrawn o = None /\ checkable num_sem os pkg
  /\ (exists o', is_affected isort num_sem o pkg = Ok (true, o'))
  /\ (exists db', check isort num_sem (load_all [] os) [pkg] = Ok ([[]], db')).
Proof.
  set (o := mkOSV "ALP-1" [] "" "" "" None "" [mkAff (mkOPkg "curl" "Alpine:v3.10") ["1.0"] []]).
  exists [o], o, (mkPkg "curl" "1.0" "" "Alpine:v3.10" "Alpine").
  split; [now left|]. split; [reflexivity|].
  split. { constructor; [apply num_order|reflexivity|]. constructor; [|constructor].
           intros a r Ha Hr. destruct Ha as [<-|[]]. destruct Hr. }
  split; eexists; vm_compute; reflexivity.
Qed.
Print Assumptions C07_suffixed_complete_refuted.

(** C08 *)
Theorem C08_index_aligned : forall S sem names os db pkgs,
  SorterOk S -> history S sem (load_all names os) db ->
  Forall (fun p => checkable sem os p /\ (names = [] \/ In (p_name p) names) /\ has_char ":" (p_eco p) = false) pkgs ->
  exists rs db', check S sem db pkgs = Ok (rs, db') /\ Forall2 (reported sem os) pkgs rs.
Proof. exact c08_aligned. Qed.
Print Assumptions C08_index_aligned.
Theorem C08_reported_functional : forall sem os pkg vs vs',
  reported sem os pkg vs -> reported sem os pkg vs' -> Forall2 osv_same vs vs'.
Proof. exact reported_fun. Qed.
Print Assumptions C08_reported_functional.
Theorem C08_one_result_per_package : forall S sem names os db pkgs rs db',
  SorterOk S -> history S sem (load_all names os) db ->
  check S sem db pkgs = Ok (rs, db') -> List.length rs = List.length pkgs.
Proof. exact c08_length. Qed.
Print Assumptions C08_one_result_per_package.
Example C08_hypotheses_met :
  Forall (fun p => checkable num_sem ex_all p /\ (@nil string = [] \/ In (p_name p) []) /\ has_char ":" (p_eco p) = false)
    [ex_pkg "4.0"; ex_pkg "1.0"; ex_pkg "2.2"]
  /\ exists rs db', check isort num_sem (load_all [] ex_all) [ex_pkg "4.0"; ex_pkg "1.0"; ex_pkg "2.2"] = Ok (rs, db')
     /\ map (map o_id) rs = [[]; ["GHSA-1"]; ["GHSA-1"]].
Proof.
  split.
  - repeat apply Forall_cons; try apply Forall_nil; (split; [now apply ex_checkable|]); split; auto.
  - eexists _, _. split; vm_compute; reflexivity.
Qed.

(** C09 *)
Theorem C09_prefilter_irrelevant : forall S sem names os pkgs rs1 db1 rs2 db2,
  SorterOk S -> Forall (fun p => checkable sem os p /\ In (p_name p) names /\ has_char ":" (p_eco p) = false) pkgs ->
  check S sem (load_all names os) pkgs = Ok (rs1, db1) ->
  check S sem (load_all [] os) pkgs = Ok (rs2, db2) ->
  Forall2 (Forall2 osv_same) rs1 rs2 /\ m_count db1 = m_count db2.
Proof. exact c09_filter. Qed.
Print Assumptions C09_prefilter_irrelevant.
Example C09_hypotheses_met :
  Forall (fun p => checkable num_sem ex_all p /\ In (p_name p) ["lib"] /\ has_char ":" (p_eco p) = false) [ex_pkg "1.0"]
  /\ List.length (m_heap (load_all ["lib"] ex_all)) = 3 /\ List.length (m_heap (load_all [] ex_all)) = 4
  /\ (exists rs db', check isort num_sem (load_all ["lib"] ex_all) [ex_pkg "1.0"] = Ok (rs, db') /\ map (map o_id) rs = [["GHSA-1"]]).
Proof.
  split; [apply Forall_cons; [|apply Forall_nil]; split; [now apply ex_checkable|]; cbn; auto|].
  split; [reflexivity|]. split; [reflexivity|]. eexists _, _; split; vm_compute; reflexivity.
Qed.

(** C10 *)
Theorem C10_check_never_withdrawn : forall S sem names os db pkgs rs db',
  SorterOk S -> history S sem (load_all names os) db -> check S sem db pkgs = Ok (rs, db') ->
  forall vs v, In vs rs -> In v vs -> o_withdrawn v = None /\ exists o, In o os /\ osv_same o v.
Proof. exact c10_check. Qed.
Print Assumptions C10_check_never_withdrawn.
Theorem C10_vulnerabilities_listing : forall S sem names os db entries incl,
  SorterOk S -> history S sem (load_all names os) db -> Permutation entries (m_vulns db) ->
  let vs := vulnerabilities (m_heap db) entries incl in
  NoDup (map o_id vs)
  /\ (forall v, In v vs -> exists o, In o os /\ osv_same o v /\ (o_withdrawn o = None \/ incl = true))
  /\ (forall o, In o os -> o_affected o <> [] -> o_withdrawn o = None \/ incl = true ->
        (names = [] \/ exists a n, In a (o_affected o) /\ match_name (a_pkg a) n /\ In n names) ->
        In (o_id o) (map o_id vs)).
Proof. exact c10_list. Qed.
Print Assumptions C10_vulnerabilities_listing.
Example C10_cases :
  let db := load_all [] ex_all in
  map o_id (vulnerabilities (m_heap db) (m_vulns db) false) = ["GHSA-1"; "OSV-2"; "PYSEC-1"]
  /\ map o_id (vulnerabilities (m_heap db) (rev (m_vulns db)) true) = ["PYSEC-1"; "GHSA-1"; "OSV-2"; "OSV-3"].
Proof. vm_compute. auto. Qed.

(** C11 *)
Theorem C11_unique : forall l, dedup_of l (unique l).
Proof. exact unique_dedup. Qed.
Print Assumptions C11_unique.
Theorem C11_dedup_meaning : forall l k, dedup_of l k ->
  incl k l /\ ForallOrdPairs (fun a b => ~ related a b) k
  /\ (forall v, In v l -> exists x, In x k /\ (x = v \/ related x v)).
Proof. exact dedup_props. Qed.
Print Assumptions C11_dedup_meaning.
Theorem C11_dedup_functional : forall l k k', dedup_of l k -> dedup_of l k' -> k = k'.
Proof. exact dedup_fun. Qed.
Print Assumptions C11_dedup_functional.
Theorem C11_idempotent : forall l, unique (unique l) = unique l.
Proof. exact unique_idem. Qed.
Print Assumptions C11_idempotent.
Theorem C11_related_symmetric : forall a b, related a b -> related b a.
Proof. exact related_sym. Qed.
Print Assumptions C11_related_symmetric.
Theorem C11_includes : forall vs v, includes vs v = true <-> exists x, In x vs /\ related x v.
Proof. exact includes_iff. Qed.
Print Assumptions C11_includes.
Example C11_case : map o_id (unique [ex_osv; ex_pypi; ex_alias; ex_osv]) = ["GHSA-1"; "PYSEC-1"] /\ related ex_osv ex_alias.
Proof. split; [vm_compute; reflexivity|]. right; right; right. exists "CVE-1". cbn. auto. Qed.
(** sharing an alias is not transitive, so the outcome depends on the order *)
Theorem C11_transitivity_refuted : exists a b c, related a b /\ related b c /\ ~ related a c
  /\ unique [a; b; c] = [a; c] /\ unique [b; a; c] = [b].
Proof.
  exists (mkOSV "A" ["x"] "" "" "" None "" []), (mkOSV "B" ["x"; "y"] "" "" "" None "" []), (mkOSV "C" ["y"] "" "" "" None "" []).
  split; [right; right; right; exists "x"; cbn; auto|].
  split; [right; right; right; exists "y"; cbn; auto|].
  split; [|vm_compute; auto].
  intros [H|[H|[H|(x & H1 & H2)]]]; cbn in *; try discriminate.
  - destruct H as [H|[]]; discriminate.
  - destruct H as [H|[]]; discriminate.
  - destruct H1 as [<-|[]]. destruct H2 as [H|[]]; discriminate.
Qed.
Print Assumptions C11_transitivity_refuted.

(** C12 *)
Theorem C12_describe : forall o, described o (describe o).
Proof. exact describe_spec. Qed.
Print Assumptions C12_describe.
Theorem C12_truncate : forall s limit, 0 < limit -> shortened s limit (truncate s limit).
Proof. exact truncate_spec. Qed.
Print Assumptions C12_truncate.
Theorem C12_shortened_functional : forall s limit a b, shortened s limit a -> shortened s limit b -> a = b.
Proof. exact shortened_fun. Qed.
Print Assumptions C12_shortened_functional.
Example C12_cases : describe ex_osv = "some details (https://github.com/advisories/GHSA-1)"
  /\ describe ex_pypi = "py" /\ describe ex_alias = "(no details available)"
  /\ truncate "hello wide world" 8 = "hello...".
Proof. vm_compute. auto. Qed.
(** text of exactly [limit] characters is cut although it is not longer, and a
    cut can fall inside a UTF-8 character *)
Theorem C12_only_longer_text_is_cut_refuted : exists s limit, List.length (runes_of s) <= limit /\ truncate s limit <> s.
Proof. exists "exactly ten", 11. split; [vm_compute; auto|]. vm_compute. discriminate. Qed.
Print Assumptions C12_only_longer_text_is_cut_refuted.
Definition e_acute : string := String "195" (String "169" "").
Theorem C12_whole_characters_refuted : exists s limit,
  truncate s limit = String "195" "..." /\ runes_of s = [e_acute; e_acute].
Proof. exists (e_acute +s+ e_acute), 1. split; vm_compute; reflexivity. Qed.
Print Assumptions C12_whole_characters_refuted.

(** C13 *)
Theorem C13_history_independent : forall S sem names os db pkgs rs1 db1 rs2 db2,
  SorterOk S -> history S sem (load_all names os) db ->
  Forall (fun p => checkable sem os p /\ (names = [] \/ In (p_name p) names) /\ has_char ":" (p_eco p) = false) pkgs ->
  check S sem db pkgs = Ok (rs1, db1) -> check S sem (load_all names os) pkgs = Ok (rs2, db2) ->
  Forall2 (Forall2 osv_same) rs1 rs2.
Proof. exact c13_history. Qed.
Print Assumptions C13_history_independent.
Example C13_history_nontrivial : exists db, history isort num_sem (load_all [] ex_all) db
  /\ m_heap db <> m_heap (load_all [] ex_all).
Proof.
  assert (E : exists rs db, check isort num_sem (load_all [] ex_all) [ex_pkg "4.0"; ex_pkg "1.0"] = Ok (rs, db)
            /\ m_heap db <> m_heap (load_all [] ex_all)).
  { eexists _, _. split; [vm_compute; reflexivity|]. vm_compute. discriminate. }
  destruct E as (rs & db & E & N). exists db. split; [|exact N]. econstructor; [exact E|constructor].
Qed.

(** C67 *)
Theorem C67_affects_ecosystem : forall o eco,
  affects_ecosystem o eco = true <-> exists a, In a (o_affected o) /\ op_eco (a_pkg a) = eco.
Proof. exact affects_ecosystem_iff. Qed.
Print Assumptions C67_affects_ecosystem.
Example C67_cases : affects_ecosystem ex_pypi "PyPI" = true /\ affects_ecosystem ex_pypi "PyPI:x" = false.
Proof. split; reflexivity. Qed.

(** C68 *)
Theorem C68_range_crash : forall S sem r pkg, contains_version S sem r pkg = Panic <->
  crashes (comparisons S Event (ev_less sem (p_cmp pkg)) (r_events r)) sem pkg r.
Proof. exact contains_version_crashes. Qed.
Print Assumptions C68_range_crash.
Theorem C68_crash_only_on_unparseable : forall S sem o pkg, ComparesOk S -> is_affected S sem o pkg = Panic ->
  exists a r, In a (o_affected o) /\ In r (a_ranges a)
    /\ same_ecosystem (op_eco (a_pkg a)) (p_eco pkg) /\ match_name (a_pkg a) (p_name pkg) /\ crash_range sem pkg r.
Proof. exact is_affected_panic. Qed.
Print Assumptions C68_crash_only_on_unparseable.
Theorem C68_never_crashes_refuted : exists sem o pkg, forall S, is_affected S sem o pkg = Panic.
Proof. exists num_sem, ex_osv, (ex_pkg "1.x"). intros S. reflexivity. Qed.
Print Assumptions C68_never_crashes_refuted.
(** one event that cannot be parsed is harmless beside one that is "0", but not
    beside another one; a single event is never compared *)
Example C68_cases : ComparesOk isort
  /\ (exists b r, contains_version isort num_sem (mkRange "SEMVER" [mkEv "0" "" ""; mkEv "" "1.x" ""]) (ex_pkg "1.0") = Ok (b, r))
  /\ (exists b r, contains_version isort num_sem (mkRange "SEMVER" [mkEv "1.x" "" ""]) (ex_pkg "1.0") = Ok (b, r))
  /\ contains_version isort num_sem (mkRange "SEMVER" [mkEv "1.0" "" ""; mkEv "" "1.x" ""]) (ex_pkg "1.0") = Panic
  /\ (forall S, ComparesOk S -> contains_version S num_sem (mkRange "SEMVER" [mkEv "1.x" "" ""]) (ex_pkg "1.0") <> Panic).
Proof.
  split; [exact isort_compares_ok|]. split; [eexists _, _; vm_compute; reflexivity|]. split; [eexists _, _; vm_compute; reflexivity|]. split; [vm_compute; reflexivity|].
  intros S OK H. apply (contains_version_panic _ _ _ _ OK) in H as (_ & _ & [C|(i & j & e & e' & D & Ei & Ej & _)]); [vm_compute in C; discriminate C|].
  cbn [r_events] in Ei, Ej. destruct i as [|[|]], j as [|[|]]; cbn in Ei, Ej; congruence.
Qed.
