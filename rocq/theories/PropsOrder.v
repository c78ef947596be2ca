(** C51: the order of iteration over maps. *)
From Coq Require Import QArith.
From Verif Require Import GoStr GoStrFacts Types Json GoMap Scan PkgMapSpec LockIO LockSpec ListLocks KeyLocks NpmLock NpmSpec NpmProofs PnpmLock PnpmSpec GoLock GoProofs MavenLock Requirements OrderSpec OrderProofs PropsListLocks PropsNpm PropsPnpm.
Local Open Scope list_scope.

(** whatever a file holds, the outcome is the same in every order: for the
    parsers which only range over a map, the same packages *)
Theorem C51_bun : forall it it' files jsonc path, IterOk it -> IterOk it' -> same_packages (parse_bun_lock it files jsonc path) (parse_bun_lock it' files jsonc path).
Proof. exact (fun it it' files jsonc path IT IT' => bun_same it it' IT IT' files jsonc path). Qed.
Print Assumptions C51_bun.
Theorem C51_renv : forall it it' files path, IterOk it -> IterOk it' -> same_packages (parse_renv_lock it files path) (parse_renv_lock it' files path).
Proof. exact (fun it it' files path IT IT' => renv_same it it' IT IT' files path). Qed.
Print Assumptions C51_renv.
Theorem C51_pubspec : forall it it' files yaml path, IterOk it -> IterOk it' -> same_packages (parse_pubspec_lock it files yaml path) (parse_pubspec_lock it' files yaml path).
Proof. exact (fun it it' files yaml path IT IT' => pubspec_same it it' IT IT' files yaml path). Qed.
Print Assumptions C51_pubspec.
Theorem C51_maven : forall it it' files xml path, IterOk it -> IterOk it' ->
  same_packages (fst (parse_maven_lock it files xml path)) (fst (parse_maven_lock it' files xml path))
  /\ snd (parse_maven_lock it files xml path) = snd (parse_maven_lock it' files xml path).
Proof. exact (fun it it' files xml path IT IT' => maven_same it it' IT IT' files xml path). Qed.
Print Assumptions C51_maven.
(** for those which put packages in a map, the same names and versions joined by an @ *)
Theorem C51_nuget : forall it it' files path, IterOk it -> IterOk it' -> same_up_to name_at (parse_nuget_lock it files path) (parse_nuget_lock it' files path).
Proof. exact (fun it it' files path IT IT' => nuget_same it it' IT IT' files path). Qed.
Print Assumptions C51_nuget.
Theorem C51_pipenv : forall it it' files path, IterOk it -> IterOk it' -> same_up_to name_at (parse_pipenv_lock it files path) (parse_pipenv_lock it' files path).
Proof. exact (fun it it' files path IT IT' => pipenv_same it it' IT IT' files path). Qed.
Print Assumptions C51_pipenv.
Theorem C51_go : forall it it' files modfile path, IterOk it -> IterOk it' -> same_up_to name_at (parse_go_lock it files modfile path) (parse_go_lock it' files modfile path).
Proof. exact (fun it it' files modfile path IT IT' => go_same it it' IT IT' files modfile path). Qed.
Print Assumptions C51_go.
Theorem C51_requirements : forall it it' files depth path, IterOk it -> IterOk it' ->
  match parse_requirements_txt it files depth path, parse_requirements_txt it' files depth path with
  | Some (inr ps), Some (inr qs) => Permutation (map name_at ps) (map name_at qs)
  | r, r' => r = r'
  end.
Proof. exact requirements_same. Qed.
Print Assumptions C51_requirements.
(** so the same packages, when no version has an @ in it *)
Theorem C51_nuget_exact : forall it it' files path, IterOk it -> IterOk it' -> plain_result (parse_nuget_lock it files path) -> plain_result (parse_nuget_lock it' files path) ->
  same_packages (parse_nuget_lock it files path) (parse_nuget_lock it' files path).
Proof. exact (fun it it' files path IT IT' V V' => same_plain "NuGet" _ _ (fun ps p => nuget_pkgs files it path ps p IT) (fun ps p => nuget_pkgs files it' path ps p IT') V V' (nuget_same it it' IT IT' files path)). Qed.
Print Assumptions C51_nuget_exact.
Theorem C51_pipenv_exact : forall it it' files path, IterOk it -> IterOk it' -> plain_result (parse_pipenv_lock it files path) -> plain_result (parse_pipenv_lock it' files path) ->
  same_packages (parse_pipenv_lock it files path) (parse_pipenv_lock it' files path).
Proof. exact (fun it it' files path IT IT' V V' => same_plain "PyPI" _ _ (fun ps p => pipenv_pkgs files it path ps p IT) (fun ps p => pipenv_pkgs files it' path ps p IT') V V' (pipenv_same it it' IT IT' files path)). Qed.
Print Assumptions C51_pipenv_exact.
Theorem C51_go_exact : forall it it' files modfile path, IterOk it -> IterOk it' -> plain_result (parse_go_lock it files modfile path) -> plain_result (parse_go_lock it' files modfile path) ->
  same_packages (parse_go_lock it files modfile path) (parse_go_lock it' files modfile path).
Proof. exact (fun it it' files modfile path IT IT' V V' => same_plain "Go" _ _ (fun ps p => go_pkgs files it modfile path ps p IT) (fun ps p => go_pkgs files it' modfile path ps p IT') V V' (go_same it it' IT IT' files modfile path)). Qed.
Print Assumptions C51_go_exact.
(** npm: the same outcome and as many packages; by name and commit or version
    the same packages in the newer format, and in the older one the same
    packages when the names and versions are sound *)
Theorem C51_npm : forall it it' files url path, IterOk it -> IterOk it' -> same_up_to (fun _ => tt) (parse_npm_lock it files url path) (parse_npm_lock it' files url path).
Proof. exact (fun it it' files url path IT IT' => npm_same it it' IT IT' files url path). Qed.
Print Assumptions C51_npm.
Theorem C51_npm2 : forall it it' files url path j ps, IterOk it -> IterOk it' -> json_file files path j -> npm_doc2 ps j ->
  same_up_to npm_id (parse_npm_lock it files url path) (parse_npm_lock it' files url path)
  /\ (no_clash npm_id (parse_npm_lock it files url path) (parse_npm_lock it' files url path) -> same_packages (parse_npm_lock it files url path) (parse_npm_lock it' files url path)).
Proof.
  intros it it' files url path j ps IT IT' F D. pose proof (npm_same2 it it' IT IT' files url path j ps F D) as S. split; [exact S|]. intros N. eapply same_no_clash; eauto.
Qed.
Print Assumptions C51_npm2.
Theorem C51_npm1 : forall it it' files url path j deps, IterOk it -> IterOk it' -> json_file files path j -> npm_doc1 deps j -> sound_deps url deps ->
  same_packages (parse_npm_lock it files url path) (parse_npm_lock it' files url path).
Proof.
  intros it it' files url path j deps IT IT' F D S. destruct (parse_npm_lock it files url path) as [r|] eqn:E.
  - assert (N : forall n v, dep_in deps n v -> ~ bad_alias v). { intros n v I B. assert (X : parse_npm_lock it files url path = Panic) by (apply (npm_crash1 it files url path j deps IT F D); eauto). rewrite E in X. discriminate. }
    destruct (npm_order1 it it' files url path j deps IT IT' F D N S) as (ps & qs & P & Q & PM). rewrite E in P. injection P as ->. rewrite Q. now apply same_list.
  - assert (X : parse_npm_lock it' files url path = Panic) by (apply (npm_crash1 it' files url path j deps IT' F D); now apply (npm_crash1 it files url path j deps IT F D)). rewrite X. constructor.
Qed.
Print Assumptions C51_npm1.
(** pnpm: the same packages, but a file to crash on and to fail on does either *)
Theorem C51_pnpm : forall it it' files float yaml path, IterOk it -> IterOk it' ->
  same_packages (parse_pnpm_lock it files float yaml path) (parse_pnpm_lock it' files float yaml path)
  \/ (parse_pnpm_lock it files float yaml path = Panic /\ parse_pnpm_lock it' files float yaml path = Ok (inl (FParse path)))
  \/ (parse_pnpm_lock it files float yaml path = Ok (inl (FParse path)) /\ parse_pnpm_lock it' files float yaml path = Panic).
Proof. exact (fun it it' files float yaml path IT IT' => pnpm_same it it' IT IT' files float yaml path). Qed.
Print Assumptions C51_pnpm.
Theorem C51_pnpm_refuted : ~ forall it it' files float yaml path, IterOk it -> IterOk it' ->
  same_packages (parse_pnpm_lock it files float yaml path) (parse_pnpm_lock it' files float yaml path).
Proof.
  intros H. assert (X := H lx_iter lx_rev (lx_file "x") (fun _ => Some 5) (px_yaml [("/@a", px "" "" "" ""); ("acorn", px "" "" "" "")]) "/l" lx_iter_ok lx_rev_ok). revert X.
  replace (parse_pnpm_lock lx_iter _ _ _ _) with (@Panic (lock_fail + list Pkg)) by (vm_compute; reflexivity).
  replace (parse_pnpm_lock lx_rev _ _ _ _) with (@Ok (lock_fail + list Pkg) (inl (FParse "/l"))) by (vm_compute; reflexivity). intros X. inversion X.
Qed.
Print Assumptions C51_pnpm_refuted.
(** packages that share a key: which of them is reported depends on the order *)
Definition ox_clash : string := "{""version"": 1, ""dependencies"": {""x"": {""a@b"": {""resolved"": ""1""}, ""a"": {""resolved"": ""b@1""}}}}".
Theorem C51_clash_refuted : ~ forall it it' files path, IterOk it -> IterOk it' -> same_packages (parse_nuget_lock it files path) (parse_nuget_lock it' files path).
Proof.
  intros H. assert (X := H lx_iter lx_rev (lx_file ox_clash) "/l" lx_iter_ok lx_rev_ok). revert X.
  replace (parse_nuget_lock lx_iter _ _) with (@Ok (lock_fail + list Pkg) (inr [plain_pkg "a" "b@1" "NuGet"])) by (vm_compute; reflexivity).
  replace (parse_nuget_lock lx_rev _ _) with (@Ok (lock_fail + list Pkg) (inr [plain_pkg "a@b" "1" "NuGet"])) by (vm_compute; reflexivity).
  intros X. inversion X as [| |ps qs P]; subst. rewrite !map_id in P. apply Permutation_length_1 in P. discriminate.
Qed.
Print Assumptions C51_clash_refuted.

(** two orders, listed differently, nothing hidden *)
Example C51_case : plain_result (parse_nuget_lock lx_iter (lx_file lx_nuget) "/l") /\ plain_result (parse_nuget_lock lx_rev (lx_file lx_nuget) "/l")
  /\ parse_nuget_lock lx_iter (lx_file lx_nuget) "/l" <> parse_nuget_lock lx_rev (lx_file lx_nuget) "/l".
Proof.
  split; [|split]; [intros ps p E H; vm_compute in E; injection E as <-; cbn in H; repeat destruct H as [<-|H]; try reflexivity; destruct H .. |vm_compute; discriminate].
Qed.
Example C51_pipenv_case : parse_pipenv_lock lx_iter (lx_file "{""default"": {""a"": {""version"": ""==1""}, ""b"": {""version"": ""==2""}}}") "/l" = Ok (inr [plain_pkg "a" "1" "PyPI"; plain_pkg "b" "2" "PyPI"])
  /\ parse_pipenv_lock lx_rev (lx_file "{""default"": {""a"": {""version"": ""==1""}, ""b"": {""version"": ""==2""}}}") "/l" = Ok (inr [plain_pkg "a" "1" "PyPI"; plain_pkg "b" "2" "PyPI"]).
Proof. split; vm_compute; reflexivity. Qed.
Example C51_npm_case : no_clash npm_id (parse_npm_lock lx_iter (lx_file nx_file2) (fun _ => None) "/l") (parse_npm_lock lx_rev (lx_file nx_file2) (fun _ => None) "/l").
Proof.
  intros ps qs p q E E' P Q K. vm_compute in E, E'. injection E as <-. injection E' as <-. cbn in P, Q. repeat destruct P as [<-|P]; repeat destruct Q as [<-|Q]; try destruct P; try destruct Q; vm_compute in K; try discriminate; reflexivity.
Qed.
