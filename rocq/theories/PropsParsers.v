(** All parsers: the ecosystems they report (C41) and when they crash (C64). *)
From Coq Require Import QArith.
From Verif Require Import GoStr GoStrFacts GoSort GoSortFacts Types Json GoMap Scan LockfileSpec Ecosystems LockIO ListLocks KeyLocks NpmSpec PnpmLock PnpmSpec LockSpec Lockfile Parsers ParserSpec ParserProofs CrashProofs PropsListLocks.
Local Open Scope list_scope.
Local Open Scope nat_scope.

(** C41: what Parse reports belongs to the ecosystem of the kind of lockfile *)
Theorem C41_parsers : forall D it files depth S text path parse_as lf e p, IterOk it -> SorterOk S ->
  parse S (impl D it files depth text) path parse_as = Ok (lf, e) -> In p (lf_pkgs lf) ->
  exists eco, In (lf_as lf, eco) file_ecosystem /\ p_eco p = eco /\ p_cmp p = eco.
Proof. exact (fun D it files depth S text path parse_as lf e p IT => parsed_ecosystem D it IT files depth S text path parse_as lf e p). Qed.
Print Assumptions C41_parsers.
(** every kind of lockfile has one ecosystem, and it is a known one *)
Theorem C41_known : NoDup (map fst file_ecosystem) /\ Forall (fun '(n, eco) => In n LockfileSpec.supported /\ In eco known_ecosystems) file_ecosystem.
Proof. exact file_ecosystem_known. Qed.
Print Assumptions C41_known.

(** C64: a crash has one of these causes *)
Theorem C64_only : forall D it files depth f path, IterOk it ->
  fst (run_parser D it files depth f path) = Some Panic -> crash_cause D files path f.
Proof. exact (fun D it files depth f path IT => crash_only D it IT files depth f path). Qed.
Print Assumptions C64_only.
(** the document null crashes the JSON parsers, and nothing else three of them *)
Theorem C64_null : forall D it files depth f path,
  In f [ParseComposerLock; ParseNpmLock; ParseNuGetLock; ParsePipenvLock; ParseRenvLock] -> holds files path JNull ->
  fst (run_parser D it files depth f path) = Some Panic.
Proof. exact crash_null. Qed.
Print Assumptions C64_null.
Theorem C64_exact : forall D it files depth f path, IterOk it -> In f [ParseComposerLock; ParseNuGetLock; ParseRenvLock] ->
  (fst (run_parser D it files depth f path) = Some Panic <-> holds files path JNull).
Proof. exact (fun D it files depth f path IT => crash_exact D it IT files depth f path). Qed.
Print Assumptions C64_exact.
Theorem C64_bun_null : forall D it files path, holds (through (dc_jsonc D) files) path JNull -> parse_bun_lock it files (dc_jsonc D) path = Panic.
Proof. exact bun_null. Qed.
Print Assumptions C64_bun_null.
(** the other thirteen never crash *)
Theorem C64_never : forall D it files depth f path, IterOk it ->
  In f [ParseCargoLock; ParseGemfileLock; ParseGoLock; ParseMixLock; ParsePdmLock; ParsePoetryLock; ParsePylock; ParseMavenLock; ParsePubspecLock;
        ParseRequirementsTxt; ParseYarnLock; ParseUvLock; ParseGradleLock] ->
  fst (run_parser D it files depth f path) <> Some Panic.
Proof. intros D it files depth f path IT F. apply safe_never. cbn in F. repeat destruct F as [<-|F]; try exact I. destruct F. Qed.
Print Assumptions C64_never.
(** every parser returns: none loops or ends the program, whatever the files *)
Theorem C64_returns : forall D it files depth L f path, (forall p, files p <> Gone -> In p L) -> List.length L + 2 <= depth ->
  exists r, fst (run_parser D it files depth f path) = Some r.
Proof. exact returns. Qed.
Print Assumptions C64_returns.

Definition cx_dec : Decoders := mkDecoders (fun _ => None) (fun _ => None) (fun _ => None) (fun _ => None) (fun _ => None) (fun _ => None)
  (fun _ => Some (Some (Some ("6.0", Some [("/@a", mkPnpm "" "" "" "")])))) (fun _ => Some (6#1)%Q) (fun _ => None) (fun _ _ => None) (fun s => s) (fun _ => None).
Definition cx (f : ParserFn) (content : string) : option pres := fst (run_parser cx_dec lx_rev (lx_file content) 5 f "/l").
(** each cause does happen *)
Example C64_case : cx ParseComposerLock " null " = Some Panic /\ cx ParseBunLock "null" = Some Panic
  /\ cx ParseNpmLock "{""dependencies"": {""a"": {""version"": ""npm:b""}}}" = Some Panic
  /\ cx ParsePipenvLock "{""default"": {""a"": {""version"": ""1""}}}" = Some Panic
  /\ cx ParseBunLock "{""packages"": {""a"": []}}" = Some Panic /\ cx ParsePnpmLock "x" = Some Panic
  /\ cx ParseNpmLock "{""dependencies"": {""a"": {""version"": ""npm:b@1""}}}" = Some (Ok (inr [plain_pkg "b" "1" "npm"])).
Proof. vm_compute. repeat split. Qed.
Example C64_finite : forall p, lx_file "null" p <> Gone -> In p ["/l"].
Proof. intros p. unfold lx_file. destruct (seqb_spec p "/l"); [subst; cbn; auto|congruence]. Qed.
Example C41_parsers_case : parse isort (impl cx_dec lx_rev (lx_file "{""default"": {""b"": {""version"": ""==1""}, ""a"": {""version"": ""==2""}}}") 5 (fun _ => "")) "/l" "Pipfile.lock"
  = Ok (mkLF "/l" "Pipfile.lock" [plain_pkg "a" "2" "PyPI"; plain_pkg "b" "1" "PyPI"], None) /\ In ("Pipfile.lock", "PyPI") file_ecosystem.
Proof. split; [vm_compute; reflexivity|cbn; tauto]. Qed.
