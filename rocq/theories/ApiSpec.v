(** Specification of API checks, independent of how Api.v computes them. *)
From Verif Require Import GoStr Types Json MemDB Api.

(** consecutive non-empty batches of the given size, the last may be smaller *)
Definition batches_of (size : Z) (pkgs : list Pkg) (bs : list (list Pkg)) : Prop :=
  List.concat bs = pkgs
  /\ (forall b, In b bs -> b <> [] /\ (zlen b <= size)%Z)
  /\ (forall pre b post, bs = pre ++ b :: post -> post <> [] -> zlen b = size).

(** what every constructed database meets; no Go slice is longer than 2^62 *)
Definition db_ok (db : APIDB) (pkgs : list Pkg) : Prop := (1 <= api_batch db < 2 ^ 63)%Z /\ (zlen pkgs <= 2 ^ 62)%Z.

(** the query for one package *)
Definition empty_pkg : string * json := ("package", JObj [("name", JStr ""); ("ecosystem", JStr "")]).
Definition identified (p : Pkg) : Prop := p_name p <> "" /\ p_eco p <> "" /\ p_version p <> "".
Inductive query_for (p : Pkg) : json -> Prop :=
| by_name : identified p ->
    query_for p (JObj [("version", JStr (p_version p));
                       ("package", JObj [("name", JStr (p_name p)); ("ecosystem", JStr (p_eco p))])])
| by_commit : ~ identified p -> p_commit p <> "" -> query_for p (JObj [("commit", JStr (p_commit p)); empty_pkg])
| by_nothing : ~ identified p -> p_commit p = "" -> query_for p (JObj [empty_pkg]).
Definition utf8_pkg (p : Pkg) : Prop :=
  to_valid (p_name p) = p_name p /\ to_valid (p_eco p) = p_eco p
  /\ to_valid (p_version p) = p_version p /\ to_valid (p_commit p) = p_commit p.

(** a usable answer to a batch: status 200, readable, JSON, one ID list per package *)
Definition good_answer (b : list Pkg) (h : http) (idss : list (list string)) : Prop :=
  exists body, h = HResp 200 (Some body) /\ dec_batch body = Some idss /\ List.length idss = List.length b.
(** the error that reports an unusable answer *)
Inductive bad_answer (b : list Pkg) : http -> api_err -> Prop :=
| bad_invalid : bad_answer b HInvalid EInvalid
| bad_failed : bad_answer b HFailed EFailed
| bad_status : forall n body, n <> 200%Z -> bad_answer b (HResp n body) (EStatus n)
| bad_body : bad_answer b (HResp 200 None) EUnreadable
| bad_json : forall body, dec_batch body = None -> bad_answer b (HResp 200 (Some body)) ENotJSON
| bad_count : forall body idss, dec_batch body = Some idss -> List.length idss <> List.length b ->
    bad_answer b (HResp 200 (Some body)) (EMismatch (List.length b) (List.length idss)).

(** a document in the shape the API answers with: one object per query, whose
    "vulns" (left out when there are none) are objects with at least an "id" *)
Definition vuln_json (id : string) (extra : list (string * json)) : json := JObj (("id", JStr id) :: extra).
Inductive result_json : json -> list string -> Prop :=
| res_none : result_json (JObj []) []
| res_vulns : forall ids extras, List.length extras = List.length ids ->
    Forall (Forall (fun kv => fold_key (fst kv) <> "id")) extras ->
    result_json (JObj [("vulns", JArr (map (fun x => vuln_json (fst x) (snd x)) (combine ids extras)))]) ids.
Definition batch_json (js : list json) : json := JObj [("results", JArr js)].

Section WithServer.
Variable dec_osv : string -> OSV * bool.
Variable post : string -> string -> http -> Prop.
Variable get : string -> http -> Prop.

(** the document taken from an answer; without a usable one it is empty *)
Inductive received : http -> OSV -> Prop :=
| rec_ok : forall body, received (HResp 200 (Some body)) (fst (dec_osv body))
| rec_bad : forall h, (forall body, h <> HResp 200 (Some body)) -> received h no_osv.

(** what a successful check did and returned *)
Definition checked (db : APIDB) (pkgs : list Pkg) (result : list (list OSV)) (posts gets : list string) : Prop :=
  exists (batches : list (list Pkg)) (answers : list (list (list string))) (fetched : list (string * OSV)),
    (* the batches were posted, each once, and every one was answered usably *)
    batches_of (api_batch db) pkgs batches
    /\ Permutation posts (map payload batches)
    /\ Forall2 (fun b idss => exists h, post (bulk_endpoint db) (payload b) h /\ good_answer b h idss) batches answers
    (* each distinct ID listed was requested once *)
    /\ NoDup (map fst fetched)
    /\ (forall id, In id (map fst fetched) <-> exists ids, In ids (List.concat answers) /\ In id ids)
    /\ Permutation gets (map (fun q => osv_endpoint db (fst q)) fetched)
    /\ (forall id d, In (id, d) fetched -> exists h, get (osv_endpoint db id) h /\ received h d)
    (* the k-th package gets the IDs listed for the k-th query *)
    /\ List.length (List.concat answers) = List.length pkgs
    /\ Forall2 (Forall2 (fun id v => o_id v = id
                 /\ ((exists q, In (q, v) fetched)
                     \/ (v = id_only id /\ forall q d, In (q, d) fetched -> o_id d <> id))))
               (List.concat answers) result.
End WithServer.
