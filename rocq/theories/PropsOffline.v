(** C78: once everything has been downloaded, no network is needed. *)
From Verif Require Import GoStr GoStrFacts GoSort GoSortFacts GoMap Types Json Osv MemDB Path Api ZipDB DirDB DbConfig Configer Lockfile Report Main MainSpec SemNum OsvExamples ConfigExamples MainExamples OfflineSpec OfflineProofs.

(** After a run in which every database was loaded, none of them an API, the
    same run with --offline does and writes the same, except that it makes no
    requests.  Downloads have an etag or date, and where two databases share an
    archive the server does not change it between the two requests. *)
Theorem C78_same : forall E O fs cache code s,
  (forall u v, e_cache_path E u = e_cache_path E v -> u = v) -> o_offline O = false ->
  run E O (start fs cache) = (Ok code, s) ->
  failures (s_trace s) = [] -> (forall c, In c (loads (s_trace s)) -> dc_type c <> "api") ->
  (forall u, In u (archive_urls (loads (s_trace s))) -> dated (w_answer (e_world E)) u) ->
  (forall u, twice u (archive_urls (loads (s_trace s))) -> rechecked (w_answer (e_world E)) u) ->
  exists s', run E (with_offline O) (start fs (s_cache s)) = (Ok code, s')
    /\ s_trace s' = without_requests (s_trace s) /\ s_cache s' = s_cache s /\ s_files s' = s_files s.
Proof. exact (fun E O fs cache code s J N R F A D T => offline_after E O J N fs cache code s R (conj F (conj A (conj D T)))). Qed.
Print Assumptions C78_same.

(** an archive used twice, and another one; found: GHSA-1 in both parts *)
Definition of_entries : list (string * option string) := [("npm/x.json", Some "good"); ("more/y.json", Some "alias")].
Definition of_answer (tagged : bool) (q : zreq) : zresp :=
  match rq_cond q with
  | Some (e, _) => if seqb e "tag" then ZResp 304 "" "" (Some "") else ZResp 200 "tag" "today" (Some "zip")
  | None => ZResp 200 (if tagged then "tag" else "") (if tagged then "today" else "") (Some "zip")
  end.
Definition of_world (tagged : bool) : World := mkWorld ex_parse_uri (fun _ => Some of_entries) ex_dec (of_answer tagged) (fun _ => NGone).
Definition of_env (tagged : bool) : Env := mkEnv (of_world tagged) num_sem isort (fun _ l => l) (fun _ s => s) (fun _ => "err")
  (fun v => JObj [("id", JStr (o_id v))]) mx_stat (fun _ _ => Ok ([ex_pkg "1.0"], None)) (fun _ => None) (fun u => u) yj_dec yj_enc (fun _ => true)
  (fun _ _ pkgs => Ok (inr (map (fun _ => []) pkgs))) "v".
Definition of_conf : raw_config := mkRC [] [mkRD "https://x/a.zip" "a" "" "npm/"; mkRD "https://x/a.zip" "b" "" "more/"; mkRD "https://x/c.zip" "c" "" ""].
Definition of_files (p : string) : fread := if seqb p "e/.osv-detector.yml" then FOk (yj_enc of_conf) else FNotExist.
Definition of_run (tagged : bool) (O : Opts) (cache : files) := run (of_env tagged) O (start of_files cache).
Definition of_first := of_run true (mx_opts ["e"]) (fun _ => None).
Example C78_case : exists s', of_run true (with_offline (mx_opts ["e"])) (s_cache (snd of_first)) = (Ok 1%Z, s')
  /\ s_trace s' = without_requests (s_trace (snd of_first))
  /\ List.length (filter is_request (s_trace (snd of_first))) = 3
  /\ map dc_name (loads (s_trace s')) = ["a"; "b"; "c"].
Proof.
  assert (C : run (of_env true) (mx_opts ["e"]) (start of_files (fun _ => None)) = (Ok 1%Z, snd of_first)).
  { assert (H : fst of_first = Ok 1%Z) by (vm_compute; reflexivity). rewrite <- H. unfold of_first, of_run. apply surjective_pairing. }
  assert (L : loads (s_trace (snd of_first)) = [mkDC "a" "zip" "https://x/a.zip" "npm/"; mkDC "b" "zip" "https://x/a.zip" "more/"; mkDC "c" "zip" "https://x/c.zip" ""]) by (vm_compute; reflexivity).
  assert (A : forall u cond e d b, of_answer true (mkReq u cond) = ZResp 200 e d (Some b) -> e = "tag" /\ d = "today").
  { intros u cond e d b H. unfold of_answer in H. cbn [rq_cond] in H. destruct cond as [[x y]|]; [destruct (seqb x "tag"); [discriminate H|]|]; injection H as <- <- _; auto. }
  destruct (C78_same (of_env true) (mx_opts ["e"]) of_files (fun _ => None) 1%Z (snd of_first)) as (s' & R & T & _).
  - intros u v H. exact H.
  - reflexivity.
  - exact C.
  - vm_compute. reflexivity.
  - rewrite L. intros c [<-|[<-|[<-|[]]]]; discriminate.
  - intros u _ cond e d b H. destruct (A _ _ _ _ _ H) as [-> ->]. split; [left; discriminate|reflexivity].
  - intros u _ cond e d b H. destruct (A _ _ _ _ _ H) as [-> ->]. exists "", "", (Some ""). reflexivity.
  - exists s'. split; [exact R|]. split; [exact T|]. split; [vm_compute; reflexivity|]. rewrite T. vm_compute. reflexivity.
Qed.

(** without an etag or date nothing is kept, and the offline run fails *)
Theorem C78_undated_refuted : exists E O fs cache s,
  (forall u v, e_cache_path E u = e_cache_path E v -> u = v) /\ o_offline O = false
  /\ run E O (start fs cache) = (Ok 1%Z, s) /\ failures (s_trace s) = [] /\ (forall c, In c (loads (s_trace s)) -> dc_type c <> "api")
  /\ (forall u, ~ twice u (archive_urls (loads (s_trace s))))
  /\ exists s', run E (with_offline O) (start fs (s_cache s)) = (Ok 127%Z, s').
Proof.
  set (O := mkOpts false "" "" true false false false false false false false true false 1000 [] ["e"]).
  exists (of_env false), O, of_files, (fun _ => None), (snd (of_run false O (fun _ => None))).
  split; [auto|]. split; [reflexivity|]. split.
  { assert (H : fst (of_run false O (fun _ => None)) = Ok 1%Z) by (vm_compute; reflexivity). rewrite <- H. unfold of_run. apply surjective_pairing. }
  split; [vm_compute; reflexivity|].
  assert (L : loads (s_trace (snd (of_run false O (fun _ => None)))) = [mkDC "npm" "zip" "https://osv-vulnerabilities.storage.googleapis.com/npm/all.zip" ""]) by (vm_compute; reflexivity).
  rewrite L. split; [intros c [<-|[]]; discriminate|]. split.
  { intros u (a & b & c & H). cbn in H. apply (f_equal (@List.length string)) in H. rewrite app_length in H. cbn in H. rewrite app_length in H. cbn in H. lia. }
  eexists. assert (H : fst (of_run false (with_offline O) (s_cache (snd (of_run false O (fun _ => None))))) = Ok 127%Z) by (vm_compute; reflexivity).
  rewrite <- H. unfold of_run. apply surjective_pairing.
Qed.
Print Assumptions C78_undated_refuted.
