(** C82: files are refused exactly when they are not JSON of the declared type. *)
From Verif Require Import GoStr Types Json Scan GoMap NumSpec FitSpec LockIO ListLocks KeyLocks NpmLock Api ZipDB FitProofs.
From Verif Require OsvJson Warnings Lockfile Base64Spec JsonSpec JsonGrammar.

Theorem C82_npm : forall it files url path content, files path = Text content false ->
  (parse_npm_lock it files url path = Ok (inl (FParse path)) <-> ~ of_type npm_type content).
Proof. intros it files url path content F. exact (npm_refused it files path content F url). Qed.
Print Assumptions C82_npm.
Theorem C82_nuget : forall it files path content, files path = Text content false ->
  (parse_nuget_lock it files path = Ok (inl (FParse path)) <-> ~ of_type nuget_type content).
Proof. exact nuget_refused. Qed.
Print Assumptions C82_nuget.
Theorem C82_pipenv : forall it files path content, files path = Text content false ->
  (parse_pipenv_lock it files path = Ok (inl (FParse path)) <-> ~ of_type pipenv_type content).
Proof. exact pipenv_refused. Qed.
Print Assumptions C82_pipenv.
Theorem C82_bun : forall it files jsonc path content, files path = Text content false ->
  (parse_bun_lock it files jsonc path = Ok (inl (FParse path)) <-> ~ of_type bun_type (jsonc content)).
Proof. intros it files jsonc path content F. exact (bun_refused it files path content F jsonc). Qed.
Print Assumptions C82_bun.
Theorem C82_composer : forall files path content, files path = Text content false ->
  (parse_composer_lock files path = Ok (inl (FParse path)) <-> ~ of_type composer_type content).
Proof. exact composer_refused. Qed.
Print Assumptions C82_composer.
Theorem C82_renv : forall it files path content, files path = Text content false ->
  (parse_renv_lock it files path = Ok (inl (FParse path)) <-> ~ of_type renv_type content).
Proof. exact renv_refused. Qed.
Print Assumptions C82_renv.
(** responses of an API *)
Theorem C82_batch : forall pkgs body, batch_reply pkgs (HResp 200 (Some body)) = inl ENotJSON <-> ~ of_type batch_type body.
Proof. exact batch_refused. Qed.
Print Assumptions C82_batch.
Theorem C82_fetch : forall rfc3339 h, let dec := OsvJson.dec_osv rfc3339 in
  (snd (fetch_reply dec h) = None <-> exists b, h = HResp 200 (Some b) /\ of_type (osv_type rfc3339) b)
  /\ (snd (fetch_reply dec h) = Some ENotJSON <-> exists b, h = HResp 200 (Some b) /\ ~ of_type (osv_type rfc3339) b).
Proof. exact fetch_errors. Qed.
Print Assumptions C82_fetch.
(** advisory files, and the cache *)
Theorem C82_advisory : forall rfc3339 content, snd (OsvJson.dec_osv rfc3339 content) = false <-> of_type (osv_type rfc3339) content.
Proof. exact osv_takes. Qed.
Print Assumptions C82_advisory.
Theorem C82_cache : forall path json_err content,
  let t := ("Failed to parse cache from " +s+ path +s+ ": " +s+ json_err content +s+ Lockfile.newline)%string in
  (of_type cache_type content -> Warnings.cache_says json_err path (Some content) = [])
  /\ (~ of_type cache_type content -> Warnings.cache_says json_err path (Some content) = [t]).
Proof. exact cache_complaint. Qed.
Print Assumptions C82_cache.

(** ** a version number that is too large, and the largest one *)
Definition fx_it : Iter := fun _ l => l.
Definition fx_file (content : string) : string -> txt := fun _ => Text content false.
Definition fx_big : string := "{""lockfileVersion"": 9223372036854775808, ""dependencies"": {""a"": {""version"": ""1.0.0""}}}".
Definition fx_max : string := "{""lockfileVersion"": 9223372036854775807, ""dependencies"": {""a"": {""version"": ""1.0.0""}}}".
Example C82_npm_case : ~ of_type npm_type fx_big /\ of_type npm_type fx_max
  /\ parse_npm_lock fx_it (fx_file fx_max) (fun _ => None) "p" = Ok (inr [mkPkg "a" "1.0.0" "" "npm" "npm"]).
Proof.
  split; [apply (C82_npm fx_it (fx_file fx_big) (fun _ => None) "p" fx_big eq_refl); vm_compute; reflexivity|]. split; [|vm_compute; reflexivity].
  eexists. split; [apply JsonGrammar.parse_iff; vm_compute; reflexivity|]. right. eexists. split; [reflexivity|]. intros k x P [E|[E|[]]]; injection E as <- <-; intros [E|[E|[E|[]]]]; try discriminate E; injection E as <-.
  - right. exists "9223372036854775807", 9223372036854775807%Z. split; [reflexivity|]. split; [|unfold int64; lia]. apply wh_plus. apply NumProofs.decimal_iff. now vm_compute.
  - right. eexists. split; [reflexivity|]. intros k x [E|[]]. injection E as <- <-. constructor; intros k x [E|[]]; injection E as <- <-; intros E; [right; eauto|discriminate].
Qed.
(** a fraction, a wrong element, a number no float64 holds *)
Example C82_refused_case :
  parse_nuget_lock fx_it (fx_file "{""version"": 1.0}") "p" = Ok (inl (FParse "p"))
  /\ parse_nuget_lock fx_it (fx_file "{""version"": -0}") "p" = Ok (inl (FVersion "p"))
  /\ parse_pipenv_lock fx_it (fx_file "{""default"": {""a"": {""version"": [""==1""]}}}") "p" = Ok (inl (FParse "p"))
  /\ parse_composer_lock (fx_file "{""packages"": {}}") "p" = Ok (inl (FParse "p"))
  /\ parse_renv_lock fx_it (fx_file "{""Packages"": {""a"": ""1""}}") "p" = Ok (inl (FParse "p"))
  /\ parse_bun_lock fx_it (fx_file "{""packages"": {""a"": [""a@1"", 1.8e308]}}") (fun s => s) "p" = Ok (inl (FParse "p"))
  /\ parse_bun_lock fx_it (fx_file "{""packages"": {""a"": [""a@1"", 1.7e308]}}") (fun s => s) "p" = Ok (inr [mkPkg "a" "1" "" "npm" "npm"]).
Proof. vm_compute. repeat split. Qed.
Example C82_batch_case :
  batch_reply [] (HResp 200 (Some "{""results"": [{""vulns"": [{""id"": 1}]}]}")) = inl ENotJSON
  /\ batch_reply [mkPkg "a" "1" "" "npm" "npm"] (HResp 200 (Some "{""results"": [{""vulns"": [{""id"": ""X""}]}]}")) = inr [["X"]].
Proof. vm_compute. auto. Qed.
Example C82_fetch_case : let dec := OsvJson.dec_osv (fun s => Some s) in
  fetch_reply dec (HResp 200 (Some "{""id"": ""X""}")) = (mkOSV "X" [] "" "" "" None "" [], None)
  /\ fetch_reply dec (HResp 200 (Some "{""id"": ""X"", ""aliases"": ""Y""}")) = (mkOSV "X" [] "" "" "" None "" [], Some ENotJSON)
  /\ snd (fetch_reply dec (HResp 404 (Some "{""id"": ""X""}"))) = Some (EStatus 404).
Proof. vm_compute. auto. Qed.
(** bytes as numbers are fine; a header that is no string is complained of *)
Example C82_cache_case :
  Warnings.cache_says (fun _ => "e") "c" (Some "{""url"": ""u"", ""body"": [80, 75, null]}") = []
  /\ fst (dec_cache "{""url"": ""u"", ""body"": [80, 75, null]}") = Some (mkCache "u" "" "" (Some (String "P" (String "K" (String "000" "")))))
  /\ Warnings.cache_says (fun _ => "e") "c" (Some "{""body"": [256]}") = ["Failed to parse cache from c: e" +s+ Lockfile.newline]
  /\ Warnings.cache_says (fun _ => "e") "c" (Some "{""etag"": 1}") = ["Failed to parse cache from c: e" +s+ Lockfile.newline].
Proof. vm_compute. auto. Qed.
