(** package-lock.json: C49, C50. *)
From Verif Require Import GoStr Types Json GoMap Scan PkgMapSpec LockIO Commit CommitSpec CommitProofs LockSpec NpmLock NpmSpec NpmProofs PropsListLocks.
From Verif Require JsonGrammar.

(** C49: a v1 file's dependencies at every depth, one package per name and
    commit or version *)
Theorem C49_all : forall it files url path j deps, IterOk it -> json_file files path j -> npm_doc1 deps j ->
  (forall n v, dep_in deps n v -> ~ bad_alias v) ->
  exists ps, parse_npm_lock it files url path = Ok (inr ps) /\ per_key (listed url deps) ps.
Proof. exact npm_once1. Qed.
Print Assumptions C49_all.
(** exactly the packages listed, when the names are package names and no
    version is another's commit *)
Theorem C49_exact : forall it files url path j deps, IterOk it -> json_file files path j -> npm_doc1 deps j ->
  (forall n v, dep_in deps n v -> ~ bad_alias v) -> sound_deps url deps ->
  exists ps, parse_npm_lock it files url path = Ok (inr ps) /\ forall p, In p ps <-> exists k, listed url deps k p.
Proof. exact npm_exact1. Qed.
Print Assumptions C49_exact.
(** without aliases and files: once per name and commit or version *)
Theorem C49_once : forall it files url path j deps, IterOk it -> json_file files path j -> npm_doc1 deps j ->
  (forall n v t, dep_in deps n v -> v <> "npm:" +s+ t /\ v <> "file:" +s+ t) ->
  exists ps, parse_npm_lock it files url path = Ok (inr ps) /\ NoDup (map npm_id ps) /\ per_key (listed url deps) ps.
Proof. exact npm_plain1. Qed.
Print Assumptions C49_once.
(** an alias without a version crashes the parser, and nothing else does *)
Theorem C49_crash : forall it files url path j deps, IterOk it -> json_file files path j -> npm_doc1 deps j ->
  (parse_npm_lock it files url path = Panic <-> exists n v, dep_in deps n v /\ bad_alias v).
Proof. exact npm_crash1. Qed.
Print Assumptions C49_crash.
Definition nx_file : string :=
  "{""lockfileVersion"": 1, ""dependencies"": {""a"": {""version"": ""1.0.0"", ""dependencies"": {""b"": {""version"": ""npm:@s/b@2.0.0""}, ""a"": {""version"": ""git+ssh://git@github.com/o/a.git#abc""}}}, ""f"": {""version"": ""file:../f""}}}".
Definition nx_deps : list (string * NpmDep) :=
  [("a", mkNpmDep "1.0.0" (Some [("b", mkNpmDep "npm:@s/b@2.0.0" None); ("a", mkNpmDep "git+ssh://git@github.com/o/a.git#abc" None)])); ("f", mkNpmDep "file:../f" None)].
Definition nx_leaf (v : string) : json := JObj [("version", JStr v)].
Definition nx_json : json :=
  JObj [("lockfileVersion", JNum "1"); ("dependencies", JObj [("a", JObj [("version", JStr "1.0.0"); ("dependencies", JObj [("b", nx_leaf "npm:@s/b@2.0.0"); ("a", nx_leaf "git+ssh://git@github.com/o/a.git#abc")])]); ("f", nx_leaf "file:../f")])].
Ltac jmap_of := eexists; split; [reflexivity|]; split; [repeat constructor; cbn; intuition discriminate|].
Example C49_doc_case : npm_doc1 nx_deps nx_json.
Proof.
  assert (L : forall v, npm_dep_doc (mkNpmDep v None) (nx_leaf v)) by (intros v; eapply dd_leaf; [now left|]; eexists; split; [reflexivity|]; in_shape).
  exists [("lockfileversion", JNum (dec_of_nat 1))]. eexists. split; [right; exists 1; split; [reflexivity|lia]|]. split; [eexists; split; [reflexivity|]; in_shape|].
  jmap_of. constructor; [|constructor; [|constructor]].
  - split; [reflexivity|]. eapply (dd_deps "1.0.0" [("version", JStr "1.0.0")]); [now left|eexists; split; [reflexivity|]; in_shape|]. jmap_of. repeat constructor; apply L.
  - split; [reflexivity|]. apply L.
Qed.
Example C49_case : json_file (lx_file nx_file) "/l" nx_json
  /\ parse_npm_lock lx_rev (lx_file nx_file) (fun _ => None) "/l"
     = Ok (inr [mkPkg "a" "1.0.0" "" "npm" "npm"; mkPkg "a" "" "abc" "npm" "npm"; mkPkg "@s/b" "2.0.0" "" "npm" "npm"; mkPkg "f" "" "" "npm" "npm"]).
Proof. split; [exists nx_file; split; [reflexivity|apply JsonGrammar.parse_iff]|]; vm_compute; reflexivity. Qed.
Lemma nx_deps_in n v : dep_in nx_deps n v <-> In (n, v) [("b", "npm:@s/b@2.0.0"); ("a", "git+ssh://git@github.com/o/a.git#abc"); ("a", "1.0.0"); ("f", "file:../f")].
Proof. rewrite <- all_deps_iff. reflexivity. Qed.
Example C49_sound_case : (forall n v, dep_in nx_deps n v -> ~ bad_alias v) /\ sound_deps (fun _ => None) nx_deps.
Proof.
  assert (B : forall n v, dep_in nx_deps n v -> ~ bad_alias v).
  { intros n v I (t & E & H). apply nx_deps_in in I. destruct I as [I|[I|[I|[I|[]]]]]; injection I as <- <-; try discriminate. cbn in E. injection E as <-. discriminate. }
  assert (L : forall k p, listed (fun _ => None) nx_deps k p ->
    In (k, p) [("@s/b@npm:@s/b@2.0.0", mkPkg "@s/b" "2.0.0" "" "npm" "npm"); ("a@abc", mkPkg "a" "" "abc" "npm" "npm"); ("a@1.0.0", mkPkg "a" "1.0.0" "" "npm" "npm"); ("f@file:../f", mkPkg "f" "" "" "npm" "npm")]).
  { intros k p H. rewrite <- entries_iff in H. replace (entries (fun _ => None) (all_deps nx_deps)) with
      [("@s/b@npm:@s/b@2.0.0", mkPkg "@s/b" "2.0.0" "" "npm" "npm"); ("a@abc", mkPkg "a" "" "abc" "npm" "npm"); ("a@1.0.0", mkPkg "a" "1.0.0" "" "npm" "npm"); ("f@file:../f", mkPkg "f" "" "" "npm" "npm")] in H by (vm_compute; reflexivity). exact H. }
  split; [exact B|]. split.
  - intros k p H. apply L in H. destruct H as [H|[H|[H|[H|[]]]]]; injection H as <- <-; (split; [discriminate|]); cbn; auto. right. exists "s/b". auto.
  - intros k p q H H' C. apply L in H, H'. destruct H as [H|[H|[H|[H|[]]]]]; injection H as <- <-; destruct H' as [H'|[H'|[H'|[H'|[]]]]]; try discriminate; injection H' as <-; (reflexivity || discriminate C).
Qed.
Example C49_crash_case : parse_npm_lock lx_iter (lx_file "{""dependencies"": {""a"": {""version"": ""npm:b""}}}") (fun _ => None) "/l" = Panic.
Proof. vm_compute. reflexivity. Qed.
(** the same package twice: as itself and as an alias's target *)
Theorem C49_twice_refuted : exists files url path j deps p, json_file files path j /\ npm_doc1 deps j
  /\ parse_npm_lock lx_iter files url path = Ok (inr [p; p]).
Proof.
  exists (lx_file "{""dependencies"": {""foo"": {""version"": ""1.0.0""}, ""bar"": {""version"": ""npm:foo@1.0.0""}}}"), (fun _ => None), "/l",
    (JObj [("dependencies", JObj [("foo", nx_leaf "1.0.0"); ("bar", nx_leaf "npm:foo@1.0.0")])]), [("foo", mkNpmDep "1.0.0" None); ("bar", mkNpmDep "npm:foo@1.0.0" None)], (mkPkg "foo" "1.0.0" "" "npm" "npm").
  assert (L : forall v, npm_dep_doc (mkNpmDep v None) (nx_leaf v)) by (intros v; eapply dd_leaf; [now left|]; eexists; split; [reflexivity|]; in_shape).
  split; [eexists; split; [reflexivity|apply JsonGrammar.parse_iff; vm_compute; reflexivity]|]. split; [|vm_compute; reflexivity].
  exists []. eexists. split; [now left|]. split; [eexists; split; [reflexivity|]; in_shape|]. jmap_of. repeat constructor; apply L.
Qed.
Print Assumptions C49_twice_refuted.

(** C50: every path but the root's *)
Theorem C50_packages : forall it files url path j ps, IterOk it -> json_file files path j -> npm_doc2 ps j ->
  exists es out, parse_npm_lock it files url path = Ok (inr out) /\ once_per npm_id es out
    /\ Forall2 (fun d p => npm_package_of url (fst d) (snd d) p) (filter (fun d => negb (seqb (fst d) "")) ps) es.
Proof. exact npm_lock2. Qed.
Print Assumptions C50_packages.
(** a path and an entry make one package *)
Theorem C50_unique : forall url path d l n p q, rel_path l path -> path_name l n ->
  npm_package_of url path d p -> npm_package_of url path d q -> p = q.
Proof. exact npm_package_fun. Qed.
Print Assumptions C50_unique.
Definition nx_file2 : string :=
  "{""lockfileVersion"": 3, ""packages"": {"""": {""name"": ""root""}, ""node_modules/@s/a"": {""version"": ""1.0.0"", ""resolved"": ""https://r/a.tgz"", ""dependencies"": {""b"": ""^1.0.0""}}, ""node_modules/@s/a/node_modules/b"": {""version"": ""1.0.0""}, ""node_modules/b"": {""version"": ""1.0.0""}, ""node_modules/c"": {""name"": ""d"", ""version"": ""1.0.0"", ""resolved"": ""git+ssh://git@github.com/o/d.git#abc""}}}".
Definition nx_packages : list (string * NpmPackage) :=
  [("", mkNpmPackage "root" "" ""); ("node_modules/@s/a", mkNpmPackage "" "1.0.0" "https://r/a.tgz"); ("node_modules/@s/a/node_modules/b", mkNpmPackage "" "1.0.0" "");
   ("node_modules/b", mkNpmPackage "" "1.0.0" ""); ("node_modules/c", mkNpmPackage "d" "1.0.0" "git+ssh://git@github.com/o/d.git#abc")].
Example C50_doc_case : exists j, json_file (lx_file nx_file2) "/l" j /\ npm_doc2 nx_packages j.
Proof.
  eexists. split; [exists nx_file2; split; [reflexivity|apply JsonGrammar.parse_iff; vm_compute; reflexivity]|].
  exists [("lockfileversion", JNum (dec_of_nat 3))]. do 2 eexists. split; [right; exists 3; split; [reflexivity|lia]|]. split; [now left|]. split; [eexists; split; [reflexivity|]; in_shape|].
  jmap_of. repeat (constructor; [split; [reflexivity|]|]); [| | | | |constructor]; cbn [fst snd];
    [exists [("name", JStr "root")], [], [], []|exists [], [("version", JStr "1.0.0")], [("resolved", JStr "https://r/a.tgz")], [("dependencies", JObj [("b", JStr "^1.0.0")])]
    |exists [], [("version", JStr "1.0.0")], [], []|exists [], [("version", JStr "1.0.0")], [], []
    |exists [("name", JStr "d")], [("version", JStr "1.0.0")], [("resolved", JStr "git+ssh://git@github.com/o/d.git#abc")], []];
    (split; [now (left + right)|split; [now (left + right)|split; [now (left + right)|split]]]);
    try (now left); try (eexists; split; [reflexivity|]; in_shape). right. exists [("b", "^1.0.0")]. eexists. split; [reflexivity|]. jmap_of. repeat constructor.
Qed.
Example C50_case : parse_npm_lock lx_iter (lx_file nx_file2) (fun _ => None) "/l"
  = Ok (inr [mkPkg "@s/a" "1.0.0" "" "npm" "npm"; mkPkg "b" "1.0.0" "" "npm" "npm"; mkPkg "d" "1.0.0" "abc" "npm" "npm"]).
Proof. vm_compute. reflexivity. Qed.
Example C50_path_case : exists l, rel_path l "../x/node_modules/@s/a" /\ path_name l "@s/a".
Proof.
  exists ["..";  "x"; "node_modules"; "@s"; "a"]. split.
  - exists 1, ["x"; "node_modules"; "@s"; "a"]. split; [reflexivity|]. split; [repeat constructor; discriminate|]. split; [discriminate|reflexivity].
  - apply (pn_scoped ["..";  "x"; "node_modules"] "s" "a"); repeat split; discriminate || reflexivity.
Qed.
