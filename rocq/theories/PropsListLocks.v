(** bun, NuGet, Pipenv and the list-shaped lockfiles: C59, C60, C61. *)
From Verif Require Import GoStr Types Json GoMap Scan PkgMapSpec LockIO FitSpec ListLocks KeyLocks LockSpec KeyLocksProofs ListLocksProofs.
From Verif Require JsonSpec JsonGrammar.

Definition lx_iter : Iter := fun _ m => m.
Lemma lx_iter_ok : IterOk lx_iter. Proof. intros A m. apply Permutation_refl. Qed.
Definition lx_rev : Iter := fun _ m => rev m.
Lemma lx_rev_ok : IterOk lx_rev. Proof. intros A m. apply Permutation_rev. Qed.
Definition lx_file (content : string) : string -> txt := fun p => if seqb p "/l" then Text content false else Gone.
Ltac in_shape := repeat first [apply sh_nil | apply sh_take; [reflexivity|] | apply sh_skip; [cbn; intuition discriminate|]].

(** C59: a tuple's string gives name, version and commit *)
Theorem C59_tuple : forall t p, bun_entry t p ->
  structure_package_details t = Ok (match p with Some q => (p_name q, p_version q, p_commit q) | None => ("", "", "") end).
Proof. exact structure_spec. Qed.
Print Assumptions C59_tuple.
(** every entry's package is reported, the entries without a string are not *)
Theorem C59_bun : forall it files jsonc path content j m es, IterOk it ->
  files path = Text content false -> JsonSpec.json_doc (jsonc content) j -> bun_doc m j ->
  Forall2 (fun d p => bun_entry (snd d) p) m es ->
  exists ps, parse_bun_lock it files jsonc path = Ok (inr ps)
             /\ Permutation (flat_map (fun o => match o with Some p => [p] | None => [] end) es) ps.
Proof. intros it files jsonc path content j m es I F P. apply JsonGrammar.parse_iff in P. now apply (bun_lock it files jsonc path content j). Qed.
Print Assumptions C59_bun.
(** an empty (or null) tuple crashes the parser, and nothing else does *)
Theorem C59_crash : forall it files jsonc path content j m, IterOk it ->
  files path = Text content false -> JsonSpec.json_doc (jsonc content) j -> bun_doc m j ->
  (parse_bun_lock it files jsonc path = Panic <-> exists k, In (k, []) m).
Proof. intros it files jsonc path content j m I F P. apply JsonGrammar.parse_iff in P. now apply (bun_lock_panic it files jsonc path content j). Qed.
Print Assumptions C59_crash.
Definition lx_bun : string :=
  "{""lockfileVersion"": 1, ""packages"": {""a"": [""a@1.0.0"", {}], ""s"": [""@s/b@2.0.0""], ""g"": [""g@github:o/g#abc""], ""f"": [""f@file:../f"", ""x""], ""n"": [1]}}".
Definition lx_bun_map : list (string * list json) :=
  [("a", [JStr "a@1.0.0"; JObj []]); ("s", [JStr "@s/b@2.0.0"]); ("g", [JStr "g@github:o/g#abc"]); ("f", [JStr "f@file:../f"; JStr "x"]); ("n", [JNum "1"])].
Definition lx_bun_doc : json := JObj [("lockfileVersion", JNum "1"); ("packages", JObj (map (fun e => (fst e, JArr (snd e))) lx_bun_map))].
Example C59_doc : JsonSpec.json_doc lx_bun lx_bun_doc.
Proof. apply JsonGrammar.parse_iff. vm_compute. reflexivity. Qed.
Example C59_case : exists es, Forall2 (fun d p => bun_entry (snd d) p) lx_bun_map es
  /\ flat_map (fun o => match o with Some p => [p] | None => [] end) es
     = [mkPkg "a" "1.0.0" "" "npm" "npm"; mkPkg "@s/b" "2.0.0" "" "npm" "npm"; mkPkg "g" "" "abc" "npm" "npm"; mkPkg "f" "" "" "npm" "npm"]
  /\ parse_bun_lock lx_rev (lx_file lx_bun) (fun s => s) "/l"
     = Ok (inr [mkPkg "f" "" "" "npm" "npm"; mkPkg "g" "" "abc" "npm" "npm"; mkPkg "@s/b" "2.0.0" "" "npm" "npm"; mkPkg "a" "1.0.0" "" "npm" "npm"]).
Proof.
  exists [Some (mkPkg "a" "1.0.0" "" "npm" "npm"); Some (mkPkg "@s/b" "2.0.0" "" "npm" "npm"); Some (mkPkg "g" "" "abc" "npm" "npm"); Some (mkPkg "f" "" "" "npm" "npm"); None].
  split; [|split; vm_compute; reflexivity]. repeat (apply Forall2_cons; [|try apply Forall2_nil]); cbn [snd].
  - apply (be_string "a" "1.0.0"); [split; [discriminate|now left]|]. apply bs_version; [reflexivity|intros f; discriminate].
  - apply (be_string "@s/b" "2.0.0"); [split; [discriminate|right; exists "s/b"; auto]|]. apply bs_version; [reflexivity|intros f; discriminate].
  - apply (be_string "g" "github:o/g#abc"); [split; [discriminate|now left]|]. apply (bs_commit _ "github:o/g" "abc"); [reflexivity|reflexivity|discriminate].
  - apply (be_string "f" "file:../f"); [split; [discriminate|now left]|]. apply (bs_file _ "../f"); reflexivity.
  - apply be_other. discriminate.
Qed.
Example C59_doc_case : bun_doc lx_bun_map lx_bun_doc.
Proof.
  exists [("lockfileversion", JNum (dec_of_nat 1))], (JObj (map (fun e => (fst e, JArr (snd e))) lx_bun_map)). split; [right; exists 1; split; [reflexivity|lia]|]. split.
  - eexists. split; [reflexivity|]. in_shape.
  - eexists. split; [reflexivity|]. split; [repeat constructor; cbn; intuition discriminate|].
    assert (A : Forall (fun e => Forall anything (snd e)) lx_bun_map) by (repeat apply Forall_cons; try apply Forall_nil; cbn [snd]; repeat apply Forall_cons; try apply Forall_nil; apply LockJson.any_ok_iff; vm_compute; reflexivity).
    revert A. generalize lx_bun_map. induction 1; constructor; auto.
Qed.
Example C59_crash_case : parse_bun_lock lx_iter (lx_file "{""packages"": {""a"": null}}") (fun s => s) "/l" = Panic.
Proof. vm_compute. reflexivity. Qed.

(** C60: NuGet *)
Theorem C60_nuget : forall it files path j m, IterOk it -> json_file files path j -> nuget_doc [("version", JNum "1")] m j ->
  (forall p, In p (nuget_listed m) -> has_char "@" (p_version p) = false) ->
  exists ps, parse_nuget_lock it files path = Ok (inr ps) /\ NoDup ps /\ forall p, In p ps <-> In p (nuget_listed m).
Proof. exact (fun it files path j m IT => nuget_lock_exact it IT files path j m). Qed.
Print Assumptions C60_nuget.
Theorem C60_nuget_keys : forall it files path j m, IterOk it -> json_file files path j -> nuget_doc [("version", JNum "1")] m j ->
  exists ps, parse_nuget_lock it files path = Ok (inr ps) /\ once_per name_at (nuget_listed m) ps.
Proof. exact (fun it files path j m IT => nuget_lock it IT files path j m). Qed.
Print Assumptions C60_nuget_keys.
(** other versions, and none, are rejected *)
Theorem C60_nuget_version : forall it files path j m version, json_file files path j -> nuget_doc version m j ->
  (version = [] \/ exists n, version = [("version", JNum (dec_of_nat n))] /\ n <> 1 /\ (Z.of_nat n <= 9223372036854775807)%Z) ->
  parse_nuget_lock it files path = Ok (inl (FVersion path)).
Proof. exact nuget_version. Qed.
Print Assumptions C60_nuget_version.
Definition lx_nuget : string :=
  "{""version"": 1, ""dependencies"": {""net6.0"": {""A"": {""type"": ""Direct"", ""resolved"": ""1.0.0""}, ""B"": {""resolved"": ""2.0.0""}}, ""net7.0"": {""A"": {""resolved"": ""1.0.0""}, ""P"": {""type"": ""Project""}}}}".
Definition lx_nuget_map : list (string * list (string * string)) := [("net6.0", [("A", "1.0.0"); ("B", "2.0.0")]); ("net7.0", [("A", "1.0.0"); ("P", "")])].
Example C60_nuget_case : exists j, json_file (lx_file lx_nuget) "/l" j /\ nuget_doc [("version", JNum "1")] lx_nuget_map j
  /\ (forall p, In p (nuget_listed lx_nuget_map) -> has_char "@" (p_version p) = false)
  /\ parse_nuget_lock lx_rev (lx_file lx_nuget) "/l" = Ok (inr [plain_pkg "B" "2.0.0" "NuGet"; plain_pkg "A" "1.0.0" "NuGet"; plain_pkg "P" "" "NuGet"]).
Proof.
  eexists. split; [eexists; split; [reflexivity|apply JsonGrammar.parse_iff; vm_compute; reflexivity]|]. split.
  - eexists. split; [eexists; split; [reflexivity|in_shape]|].
    eexists. split; [reflexivity|]. split; [repeat constructor; cbn; intuition discriminate|].
    repeat (apply Forall2_cons || apply Forall2_nil); (split; [reflexivity|]); eexists; (split; [reflexivity|]); (split; [repeat constructor; cbn; intuition discriminate|]);
      repeat (apply Forall2_cons || apply Forall2_nil); (split; [reflexivity|]).
    1-3: eexists; split; [left; reflexivity|]; eexists; split; [reflexivity|]; in_shape.
    exists []. split; [now right|]. eexists. split; [reflexivity|]. in_shape.
  - split; [|vm_compute; reflexivity]. intros p P. cbn in P. destruct P as [<-|[<-|[<-|[<-|[]]]]]; reflexivity.
Qed.
Example C60_nuget_version_case : parse_nuget_lock lx_iter (lx_file "{""version"": 2, ""dependencies"": {}}") "/l" = Ok (inl (FVersion "/l"))
  /\ exists j, json_file (lx_file "{""version"": 2, ""dependencies"": {}}") "/l" j /\ nuget_doc [("version", JNum (dec_of_nat 2))] [] j.
Proof.
  split; [vm_compute; reflexivity|]. eexists. split; [eexists; split; [reflexivity|apply JsonGrammar.parse_iff; vm_compute; reflexivity]|].
  eexists. split; [eexists; split; [reflexivity|in_shape]|]. eexists. split; [reflexivity|]. split; constructor.
Qed.
(** packages sharing name@version hide each other: a@b of version 1, a of version b@1 *)
Example C60_clash : parse_nuget_lock lx_iter (lx_file "{""version"": 1, ""dependencies"": {""x"": {""a@b"": {""resolved"": ""1""}, ""a"": {""resolved"": ""b@1""}}}}") "/l"
  = Ok (inr [plain_pkg "a" "b@1" "NuGet"]).
Proof. vm_compute. reflexivity. Qed.

(** C60: Pipenv; a version of one byte crashes the parser *)
Theorem C60_pipenv : forall it files path j a b, IterOk it -> json_file files path j -> pipenv_doc a b j -> ~ Exists short_pin (a ++ b) ->
  (forall p, In p (pipenv_listed (a ++ b)) -> has_char "@" (p_version p) = false) ->
  exists ps, parse_pipenv_lock it files path = Ok (inr ps) /\ NoDup ps /\ forall p, In p ps <-> In p (pipenv_listed (a ++ b)).
Proof. exact (fun it files path j a b IT => pipenv_lock_exact it IT files path j a b). Qed.
Print Assumptions C60_pipenv.
Theorem C60_pipenv_keys : forall it files path j a b, IterOk it -> json_file files path j -> pipenv_doc a b j ->
  (Exists short_pin (a ++ b) /\ parse_pipenv_lock it files path = Panic)
  \/ (~ Exists short_pin (a ++ b) /\ exists ps, parse_pipenv_lock it files path = Ok (inr ps) /\ once_per name_at (pipenv_listed (a ++ b)) ps).
Proof. exact (fun it files path j a b IT => pipenv_lock it IT files path j a b). Qed.
Print Assumptions C60_pipenv_keys.
Definition lx_pipenv : string := "{""_meta"": {}, ""default"": {""requests"": {""version"": ""==2.0""}, ""local"": {}}, ""develop"": {""requests"": {""version"": ""==2.0""}, ""black"": {""hashes"": [], ""version"": ""==22.1""}}}".
Example C60_pipenv_case : exists j, json_file (lx_file lx_pipenv) "/l" j
  /\ pipenv_doc [("requests", "==2.0"); ("local", "")] [("requests", "==2.0"); ("black", "==22.1")] j
  /\ ~ Exists short_pin [("requests", "==2.0"); ("local", ""); ("requests", "==2.0"); ("black", "==22.1")]
  /\ parse_pipenv_lock lx_rev (lx_file lx_pipenv) "/l" = Ok (inr [plain_pkg "black" "22.1" "PyPI"; plain_pkg "requests" "2.0" "PyPI"]).
Proof.
  eexists. split; [eexists; split; [reflexivity|apply JsonGrammar.parse_iff; vm_compute; reflexivity]|]. split.
  - eexists _, _. split; [eexists; split; [reflexivity|in_shape]|].
    split; (eexists; split; [reflexivity|]; split; [repeat constructor; cbn; intuition discriminate|]); repeat (apply Forall2_cons || apply Forall2_nil); (split; [reflexivity|]).
    2: exists []; split; [now right|]; eexists; split; [reflexivity|]; in_shape.
    all: eexists; (split; [left; reflexivity|]); eexists; (split; [reflexivity|]); in_shape.
  - split; [|vm_compute; reflexivity]. rewrite Exists_exists. intros (d & I & c & C). cbn in I. destruct I as [<-|[<-|[<-|[<-|[]]]]]; discriminate.
Qed.
Example C60_pipenv_crash : parse_pipenv_lock lx_iter (lx_file "{""default"": {""a"": {""version"": ""*""}}}") "/l" = Panic.
Proof. vm_compute. reflexivity. Qed.

(** C61 *)
Theorem C61_cargo : forall files toml path l ps, read files path toml l -> Forall2 cargo_entry l ps -> parse_cargo_lock files toml path = Ok (inr ps).
Proof. exact cargo_lock. Qed.
Print Assumptions C61_cargo.
Theorem C61_composer : forall files path j a b ps qs, json_file files path j -> composer_doc a b j ->
  Forall2 composer_entry a ps -> Forall2 composer_entry b qs -> parse_composer_lock files path = Ok (inr (ps ++ qs)).
Proof. exact composer_lock. Qed.
Print Assumptions C61_composer.
Theorem C61_pdm : forall files toml path l ps, read files path toml l -> Forall2 pdm_entry l ps -> parse_pdm_lock files toml path = Ok (inr ps).
Proof. exact pdm_lock. Qed.
Print Assumptions C61_pdm.
Theorem C61_poetry : forall files toml path l ps, read files path toml l -> Forall2 poetry_entry l ps -> parse_poetry_lock files toml path = Ok (inr ps).
Proof. exact poetry_lock. Qed.
Print Assumptions C61_poetry.
Theorem C61_pubspec : forall it files yaml path m ps, IterOk it -> read files path yaml (Some (Some m)) -> Forall2 pubspec_entry m ps ->
  exists out, parse_pubspec_lock it files yaml path = Ok (inr out) /\ Permutation ps out.
Proof. exact pubspec_lock. Qed.
Print Assumptions C61_pubspec.
Theorem C61_pylock : forall files toml path l ps, read files path toml l -> makes pylock_entry l ps -> parse_pylock files toml path = Ok (inr ps).
Proof. exact pylock_lock. Qed.
Print Assumptions C61_pylock.
Theorem C61_renv : forall it files path j m ps, IterOk it -> json_file files path j -> renv_doc m j -> makes (fun e => renv_entry (snd e)) m ps ->
  exists out, parse_renv_lock it files path = Ok (inr out) /\ Permutation ps out.
Proof. exact renv_lock. Qed.
Print Assumptions C61_renv.
Theorem C61_uv : forall files toml path l ps, read files path toml l -> makes uv_entry l ps -> parse_uv_lock files toml path = Ok (inr ps).
Proof. exact uv_lock. Qed.
Print Assumptions C61_uv.
Definition lx_composer : string :=
  "{""packages"": [{""name"": ""a/b"", ""version"": ""1.0"", ""source"": {}, ""dist"": {""reference"": ""abc""}}, {""name"": ""c"", ""version"": ""2.0"", ""dist"": {""reference"": ""v2.0""}}], ""packages-dev"": [{""name"": ""m"", ""version"": ""3""}]}".
Example C61_composer_case : exists j, json_file (lx_file lx_composer) "/l" j
  /\ composer_doc [mkComposer "a/b" "1.0" "abc"; mkComposer "c" "2.0" "v2.0"] [mkComposer "m" "3" ""] j
  /\ Forall2 composer_entry [mkComposer "a/b" "1.0" "abc"; mkComposer "c" "2.0" "v2.0"] [mkPkg "a/b" "1.0" "abc" "Packagist" "Packagist"; plain_pkg "c" "2.0" "Packagist"]
  /\ parse_composer_lock (lx_file lx_composer) "/l" = Ok (inr [mkPkg "a/b" "1.0" "abc" "Packagist" "Packagist"; plain_pkg "c" "2.0" "Packagist"; plain_pkg "m" "3" "Packagist"]).
Proof.
  eexists. split; [eexists; split; [reflexivity|apply JsonGrammar.parse_iff; vm_compute; reflexivity]|]. split; [|split; [|vm_compute; reflexivity]].
  - eexists _, _. split; [eexists; split; [reflexivity|in_shape]|].
    split; eexists; (split; [reflexivity|]); repeat (apply Forall2_cons || apply Forall2_nil).
    1-2: left; eexists _, _; split; [eexists; split; [reflexivity|in_shape]|]; split; [left; reflexivity|]; eexists; split; [reflexivity|in_shape].
    right. split; [|reflexivity]. eexists. split; [reflexivity|in_shape].
  - repeat constructor.
Qed.
Example C61_pylock_case : makes pylock_entry [mkPylock "me" "" "" "."; mkPylock "a" "1" "" ""; mkPylock "g" "" "abc" ""] [plain_pkg "a" "1" "PyPI"; mkPkg "g" "" "abc" "PyPI" "PyPI"]
  /\ parse_pylock (lx_file "") (fun _ => Some [mkPylock "me" "" "" "."; mkPylock "a" "1" "" ""; mkPylock "g" "" "abc" ""]) "/l" = Ok (inr [plain_pkg "a" "1" "PyPI"; mkPkg "g" "" "abc" "PyPI" "PyPI"]).
Proof. split; [|reflexivity]. apply mk_none; [constructor|]. apply mk_some; [constructor; left; discriminate|]. apply mk_some; [constructor; right; discriminate|]. constructor. Qed.
Example C61_uv_case : makes uv_entry [mkUv "me" "0.1" "." ""; mkUv "g" "1" "" "https://x/g?rev=1#abc"; mkUv "a" "1" "" ""] [mkPkg "g" "1" "abc" "PyPI" "PyPI"; plain_pkg "a" "1" "PyPI"]
  /\ parse_uv_lock (lx_file "") (fun _ => Some [mkUv "me" "0.1" "." ""; mkUv "g" "1" "" "https://x/g?rev=1#abc"; mkUv "a" "1" "" ""]) "/l" = Ok (inr [mkPkg "g" "1" "abc" "PyPI" "PyPI"; plain_pkg "a" "1" "PyPI"]).
Proof.
  split; [|reflexivity]. apply mk_none; [constructor|]. apply mk_some; [apply (uve_git "g" "1" "" "https://x/g?rev=1" "abc"); [discriminate|reflexivity]|].
  apply mk_some; [apply uve; [discriminate|reflexivity]|]. constructor.
Qed.
Definition lx_renv : string := "{""R"": {}, ""Packages"": {""A"": {""Package"": ""A"", ""Version"": ""1"", ""Source"": ""x"", ""Repository"": ""CRAN""}, ""B"": {""Package"": ""B"", ""Version"": ""2""}, ""C"": {""Package"": ""C"", ""Version"": ""3"", ""Repository"": ""BioC""}}}".
Example C61_renv_case : exists j, json_file (lx_file lx_renv) "/l" j
  /\ renv_doc [("A", mkRenv "A" "1" "CRAN"); ("B", mkRenv "B" "2" ""); ("C", mkRenv "C" "3" "BioC")] j
  /\ makes (fun e => renv_entry (snd e)) [("A", mkRenv "A" "1" "CRAN"); ("B", mkRenv "B" "2" ""); ("C", mkRenv "C" "3" "BioC")] [plain_pkg "A" "1" "CRAN"; plain_pkg "B" "2" "CRAN"]
  /\ parse_renv_lock lx_rev (lx_file lx_renv) "/l" = Ok (inr [plain_pkg "B" "2" "CRAN"; plain_pkg "A" "1" "CRAN"]).
Proof.
  eexists. split; [eexists; split; [reflexivity|apply JsonGrammar.parse_iff; vm_compute; reflexivity]|]. split; [|split; [|vm_compute; reflexivity]].
  - eexists. split; [eexists; split; [reflexivity|in_shape]|]. eexists. split; [reflexivity|]. split; [repeat constructor; cbn; intuition discriminate|].
    repeat (apply Forall2_cons || apply Forall2_nil); (split; [reflexivity|]).
    2: exists []; split; [now right|]; eexists; split; [reflexivity|in_shape].
    all: eexists; (split; [left; reflexivity|]); eexists; (split; [reflexivity|in_shape]).
  - apply mk_some; [constructor|]. apply mk_some; [constructor|]. apply mk_none; [constructor; discriminate|]. constructor.
Qed.
Example C61_cargo_case : parse_cargo_lock (lx_file "") (fun _ => Some [mkCargo "a" "1"; mkCargo "a" "1"]) "/l" = Ok (inr [plain_pkg "a" "1" "crates.io"; plain_pkg "a" "1" "crates.io"]).
Proof. reflexivity. Qed.
Example C61_pdm_case : parse_pdm_lock (lx_file "") (fun _ => Some [mkPdm "a" "1" "abc"]) "/l" = Ok (inr [mkPkg "a" "1" "abc" "PyPI" "PyPI"])
  /\ parse_poetry_lock (lx_file "") (fun _ => Some [mkPoetry "a" "1" "abc"]) "/l" = Ok (inr [mkPkg "a" "1" "abc" "PyPI" "PyPI"])
  /\ parse_pubspec_lock lx_iter (lx_file "") (fun _ => Some (Some (Some [("a", mkPub "1" (mkPubD "" "" "" "abc"))]))) "/l" = Ok (inr [mkPkg "a" "1" "abc" "Pub" "Pub"]).
Proof. repeat split. Qed.
