(** Property theorems about zip databases and their cache (C20 to C25). *)
From Verif Require Import GoStr GoStrFacts Types Json Osv MemDB MemDBSpec OsvExamples ZipDB ZipSpec ZipProofs.
From Verif Require JsonSpec.
Local Open Scope Z_scope.

(** C20 (zip databases; API databases are refused offline by C14_constructor,
    and the whole run is C20_run): offline, whatever is in the cache file and
    whatever a server would say, no request is made. *)
Theorem C20_zip_offline_no_requests : forall unzip dec_osv url wd names file answer result write reqs,
  zip_load unzip dec_osv url wd true names file answer = (result, write, reqs) ->
  reqs = [] /\ forall answer', zip_load unzip dec_osv url wd true names file answer' = (result, write, reqs).
Proof. exact zip_offline. Qed.
Print Assumptions C20_zip_offline_no_requests.
(* online the same database does make one *)
Example C20_case : f_reqs (fetch_zip "https://x/a.zip" false None (fun _ => ZFailed)) = [mkReq "https://x/a.zip" None].
Proof. reflexivity. Qed.

(** C21: offline, the archive and date are those of the cached download; without
    a usable cache (no file, or one whose text is not JSON, or null) the load
    fails with the not-found error; nothing is written. *)
Theorem C21_offline_uses_cache : forall url u etag date body answer, to_valid etag = etag -> to_valid date = date ->
  fetch_zip url true (Some (enc_cache (Some (mkCache u etag date (Some body))))) answer = mkF (Ok (inr (body, date))) None [].
Proof. exact offline_cached. Qed.
Theorem C21_offline_not_found : forall url file answer,
  (file = None \/ exists content, file = Some content /\ ((forall j, ~ JsonSpec.json_doc content j) \/ JsonSpec.json_doc content JNull)) <->
  fetch_zip url true file answer = mkF (Ok (inl ZOfflineNotFound)) None [].
Proof. exact not_found_iff. Qed.
Theorem C21_offline_writes_nothing : forall url file answer, f_write (fetch_zip url true file answer) = None.
Proof. exact (fun url file answer => proj1 (proj2 (fetch_offline url file answer))). Qed.
Print Assumptions C21_offline_uses_cache.
Print Assumptions C21_offline_not_found.
Print Assumptions C21_offline_writes_nothing.
Example C21_case : enc_cache (Some (mkCache "u" "e" "d" (Some "body"))) = "{""url"":""u"",""etag"":""e"",""date"":""d"",""body"":""Ym9keQ==""}"
  /\ parse "{""url"":""u"",""et" = None.
Proof. split; vm_compute; reflexivity. Qed.

(** C22: start without caches, let any number of loads of any databases happen,
    online or offline, with any server answers and any of them dying while
    writing.  Then a database's cache is either unused or stands for one single
    download of that very URL: its etag and date are presented, and its archive
    is used. *)
Theorem C22_cache_is_one_download : forall path fs0 fs ds,
  (forall u v, path u = path v -> u = v) -> (forall u, fs0 (path u) = None) ->
  zip_history path fs0 fs ds -> forall url,
  uncached url (fs (path url))
  \/ exists d, In d ds /\ d_url d = url /\ (d_etag d <> "" \/ d_date d <> "") /\ works_from url (fs (path url)) d.
Proof. exact zip_coherent. Qed.
(** a completed download with an etag or date is the one used from then on; one
    without either leaves what was cached *)
Theorem C22_download_is_kept : forall path fs0 fs ds url answer rq e dt b,
  (forall u v, path u = path v -> u = v) -> (forall u, fs0 (path u) = None) -> zip_history path fs0 fs ds ->
  f_reqs (fetch_zip url false (fs (path url)) answer) = [rq] -> answer rq = ZResp 200 e dt (Some b) ->
  exists contents, f_write (fetch_zip url false (fs (path url)) answer) = Some contents
    /\ ((e <> "" \/ dt <> "") -> works_from url (Some contents) (mkDl url e dt b))
    /\ (e = "" -> dt = "" -> forall offline answer', fetch_zip url offline (Some contents) answer' = fetch_zip url offline (fs (path url)) answer').
Proof. exact completed_in_history. Qed.
(** so against an honest server an online load never crashes and, when it
    succeeds, yields the current archive *)
Theorem C22_current_archive : forall path fs0 fs ds url etag body answer,
  (forall u v, path u = path v -> u = v) -> (forall u, fs0 (path u) = None) ->
  zip_history path fs0 fs ds -> honest url etag body answer ->
  (forall d, In d ds -> d_url d = url -> to_valid (d_etag d) = etag -> d_body d = body) ->
  exists r, f_result (fetch_zip url false (fs (path url)) answer) = Ok r /\ (forall b dt, r = inr (b, dt) -> b = body).
Proof. exact zip_current. Qed.
Print Assumptions C22_cache_is_one_download.
Print Assumptions C22_download_is_kept.
Print Assumptions C22_current_archive.
(** one download of "v1" cut short, then one completed, then the server moves
    on to "v2" *)
Definition ex_zip_url := "https://x/a.zip".
Definition ex_v1 : zreq -> zresp := fun _ => ZResp 200 "e1" "d1" (Some "v1").
Definition ex_v2 (rq : zreq) : zresp :=
  match rq_cond rq with
  | Some (e, _) => if seqb e "e2" then ZResp 304 "" "" (Some "") else ZResp 200 "e2" "d2" (Some "v2")
  | None => ZResp 200 "e2" "d2" (Some "v2")
  end.
Definition ex_v1_file := enc_cache (Some (mkCache ex_zip_url "e1" "d1" (Some "v1"))).
Definition ex_dl1 := mkDl ex_zip_url "e1" "d1" "v1".
Example C22_case : exists fs, zip_history (fun u => u) (fun _ => None) fs [ex_dl1; ex_dl1]
  /\ fs ex_zip_url = Some ex_v1_file
  /\ honest ex_zip_url "e2" "v2" ex_v2
  /\ (forall d, In d [ex_dl1; ex_dl1] -> to_valid (d_etag d) = "e2" -> d_body d = "v2")
  /\ f_reqs (fetch_zip ex_zip_url false (fs ex_zip_url) ex_v2) = [mkReq ex_zip_url (Some ("e1", "d1"))]
  /\ f_result (fetch_zip ex_zip_url false (fs ex_zip_url) ex_v2) = Ok (inr ("v2", "d2")).
Proof.
  assert (H1 : zip_history (fun u => u) (fun _ => None) (file_set (fun _ => None) ex_zip_url (Some "{""url"":")) ([] ++ [ex_dl1])).
  { apply (zh_load (fun u => u) (fun _ => None) _ [] ex_zip_url false ex_v1); [constructor|reflexivity|].
    cbn -[enc_cache]. exact (wr_part None _ "{""url"":" _ eq_refl). }
  pose proof (zh_load (fun u => u) (fun _ => None) _ _ ex_zip_url false ex_v1 (Some ex_v1_file) [ex_dl1] H1 eq_refl) as H2.
  cbn -[enc_cache] in H2. specialize (H2 (wr_part _ _ ex_v1_file "" (eq_sym (sapp_nil_r _)))).
  eexists. split; [exact H2|]. split; [reflexivity|]. split; [|split; [|split; vm_compute; reflexivity]].
  - intros [u c] _. unfold ex_v2. cbn [rq_cond]. split.
    + intros e dt b. destruct c as [[e' d']|]; [destruct (seqb e' "e2")|]; intros H; try discriminate; injection H as _ _ <-; reflexivity.
    + intros e dt b. destruct c as [[e' d']|]; [destruct (seqb_spec e' "e2") as [->|]|]; intros H; try discriminate. now exists d'.
  - intros d [<-|[<-|[]]] E; vm_compute in E; discriminate.
Qed.

(** C23: cut what a load writes anywhere before its end: every later load, of
    any database, offline or online, behaves as if there were no cache file. *)
Theorem C23_torn_cache_is_no_cache : forall url offline file answer contents p q,
  f_write (fetch_zip url offline file answer) = Some contents -> contents = p +s+ q -> q <> "" ->
  forall url' offline' answer', fetch_zip url' offline' (Some p) answer' = fetch_zip url' offline' None answer'.
Proof. exact (fun url off f a c p q H E N url' => crash_safe url off f a c p q H E N url'). Qed.
Print Assumptions C23_torn_cache_is_no_cache.
Example C23_case : exists q, ex_v1_file = "{""url"":""https://x/a.zip"",""etag"":""e1"",""date"":""d1"",""body"":""dj" +s+ q /\ q <> ""
  /\ f_write (fetch_zip ex_zip_url false None ex_v1) = Some ex_v1_file.
Proof. eexists. split; [vm_compute; reflexivity|]. split; [discriminate|reflexivity]. Qed.

(** C24: an online load makes one request to its URL; what it does with the
    answer.  A 304 answer to an unconditional request crashes it. *)
Theorem C24_failed_downloads : forall url file answer, exists cond,
  let rq := mkReq url cond in let f := fetch_zip url false file answer in
  match answer rq with
  | ZInvalid => f = mkF (Ok (inl ZRequest)) None []
  | ZFailed => f = mkF (Ok (inl ZTransport)) None [rq]
  | ZResp st e dt b =>
      f_reqs f = [rq]
      /\ (st <> 200 -> st <> 304 -> f_result f = Ok (inl (ZStatus st)) /\ f_write f = None)
      /\ (st = 200 -> b = None -> f_result f = Ok (inl ZBody) /\ f_write f = None)
      /\ (st = 304 -> f_write f = None /\ (cond = None -> f_result f = Panic))
      /\ (forall body, st = 200 -> b = Some body -> f_result f = Ok (inr (body, dt)))
  end.
Proof. exact fetch_online. Qed.
Theorem C24_no_crash_refuted : exists url answer, f_result (fetch_zip url false None answer) = Panic.
Proof. exact (ex_intro _ "u" (ex_intro _ (fun _ => ZResp 304 "" "" None) eq_refl)). Qed.
Print Assumptions C24_failed_downloads.
Print Assumptions C24_no_crash_refuted.
Example C24_case : fetch_zip ex_zip_url false (Some ex_v1_file) (fun _ => ZResp 503 "e9" "d9" (Some "sorry"))
  = mkF (Ok (inl (ZStatus 503))) None [mkReq ex_zip_url (Some ("e1", "d1"))].
Proof. vm_compute. reflexivity. Qed.

(** C25: the advisories loaded from an archive *)
Theorem C25_archive_entries : forall unzip dec url wd offline names file answer db date w rqs,
  zip_load unzip dec url wd offline names file answer = (Ok (inr (db, date)), w, rqs) <->
  exists body entries os, fetch_zip url offline file answer = mkF (Ok (inr (body, date))) w rqs
    /\ unzip body = Some entries /\ archive_osvs wd dec entries os /\ db = load_all names os.
Proof. exact zip_load_spec. Qed.
Theorem C25_load_errors : forall unzip dec url wd offline names file answer e w rqs,
  zip_load unzip dec url wd offline names file answer = (Ok (inl e), w, rqs) <->
  (fetch_zip url offline file answer = mkF (Ok (inl e)) w rqs)
  \/ (e = ZArchive /\ exists body date, fetch_zip url offline file answer = mkF (Ok (inr (body, date))) w rqs /\ unzip body = None).
Proof. exact zip_load_errors. Qed.
(** the entries determine what is loaded *)
Theorem C25_functional : forall wd dec l os os', archive_osvs wd dec l os -> archive_osvs wd dec l os' -> os = os'.
Proof. exact archive_fun. Qed.
(** the working directory is a plain prefix: "npm" also takes in "npm-extra/" *)
Theorem C25_directory_boundary_refuted : exists wd name rest dec o,
  name = wd +s+ rest /\ (forall r, rest <> "/" +s+ r) /\ archive_osvs wd dec [(name, Some "{}")] [o].
Proof. exact prefix_refuted. Qed.
Print Assumptions C25_archive_entries.
Print Assumptions C25_load_errors.
Print Assumptions C25_functional.
Print Assumptions C25_directory_boundary_refuted.
Definition ex_dec (s : string) : OSV * bool := if seqb s "good" then (ex_osv, false) else if seqb s "alias" then (ex_alias, false) else (ex_pypi, true).
Example C25_case : exists w rqs,
  zip_load (fun _ => Some [("npm/1.json", Some "good"); ("go/2.json", Some "alias"); ("npm/3.json", Some "bad");
                           ("npm/x", Some "good"); ("npm/4.json", None); ("npm/5.json", Some "alias")])
    ex_dec ex_zip_url "npm/" false ["lib"] None ex_v1 = (Ok (inr (load_all ["lib"] [ex_osv; ex_alias], "d1")), w, rqs).
Proof. do 2 eexists. vm_compute. reflexivity. Qed.
