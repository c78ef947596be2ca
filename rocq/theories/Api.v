(** pkg/database/api.go, api-check.go, api-fetch.go, api-fetch-all.go *)
From Verif Require Import GoStr GoSort Types Osv Json JsonDec Path ErrGroup MemDB.
Local Open Scope Z_scope.

(** net/url: the parsed base URL is its path and the text of the URL with a
    given path put in place (u.Path = ...; u.String()) *)
Record URL := mkURL { u_path : string; u_render : string -> string }.
(** api.go:11-16 *)
Record APIDB := mkAPI { api_name : string; api_ident : string; api_url : URL; api_batch : Z }.

(** api.go:30-31,45 *)
Inductive new_err := ErrOffline | ErrBatchSize | ErrURL.
(** api.go:33-54 NewAPIDB; [parse_uri] is url.ParseRequestURI *)
Definition new_api_db (parse_uri : string -> option URL) (name ident url : string) (offline : bool) (batch : Z)
  : new_err + APIDB :=
  if offline then inl ErrOffline
  else if batch <? 1 then inl ErrBatchSize
  else match parse_uri url with
       | None => inl ErrURL
       | Some u => inr (mkAPI name ident u batch)
       end.

(** api.go:21-28 apiQuery *)
Record api_query := mkQ { q_commit : string; q_version : string; q_name : string; q_eco : string }.
(** api-check.go:18-31 buildAPIPayload *)
Definition build_payload (pkg : Pkg) : api_query :=
  if negb (seqb (p_name pkg) "") && negb (seqb (p_eco pkg) "") && negb (seqb (p_version pkg) "")
  then mkQ "" (p_version pkg) (p_name pkg) (p_eco pkg)
  else if negb (seqb (p_commit pkg) "") then mkQ (p_commit pkg) "" "" ""
  else mkQ "" "" "" "".
(** json.Marshal of an apiQuery (field tags api.go:22-27) *)
Definition query_json (q : api_query) : json :=
  JObj ((if seqb (q_commit q) "" then [] else [("commit", JStr (q_commit q))])
        ++ (if seqb (q_version q) "" then [] else [("version", JStr (q_version q))])
        ++ [("package", JObj [("name", JStr (q_name q)); ("ecosystem", JStr (q_eco q))])]).
(** api-check.go:54-62 *)
Definition payload (pkgs : list Pkg) : string :=
  print (JObj [("queries", JArr (map (fun p => query_json (build_payload p)) pkgs))]).
(** api-check.go:33-39 bulkEndpoint *)
Definition bulk_endpoint (db : APIDB) : string :=
  u_render (api_url db) (path_join [u_path (api_url db); "querybatch"]).
(** api-fetch.go:12-18 osvEndpoint *)
Definition osv_endpoint (db : APIDB) (id : string) : string :=
  u_render (api_url db) (path_join [u_path (api_url db); "vulns"; id]).

(** outcome of one request: http.NewRequest fails, Do fails, or a response
    whose body may be unreadable *)
Inductive http := HInvalid | HFailed | HResp (status : Z) (body : option string).
(** api-check.go:45-51 *)
Inductive api_err := EInvalid | EFailed | EStatus (n : Z) | EUnreadable | ENotJSON | EMismatch (want got : nat).

(** api-check.go:41-43, 110-116: the response document *)
Definition dec_object_with_id : json -> option string :=
  dec_struct (fun k v s => if seqb k "id" then dec_string v s else Some s) "".
Definition dec_result : json -> option (list string) :=
  dec_struct (fun k v s => if seqb k "vulns" then dec_list dec_object_with_id v else Some s) [].
Definition dec_batch (body : string) : option (list (list string)) :=
  match parse body with
  | None => None
  | Some j => dec_struct (fun k v s => if seqb k "results" then dec_list dec_result v else Some s) [] j
  end.

(** api-check.go:75-143 checkBatch after sending the request *)
Definition batch_reply (pkgs : list Pkg) (h : http) : api_err + list (list string) :=
  match h with
  | HInvalid => inl EInvalid
  | HFailed => inl EFailed
  | HResp status body =>
      if negb (status =? 200) then inl (EStatus status)
      else match body with
           | None => inl EUnreadable
           | Some b =>
               match dec_batch b with
               | None => inl ENotJSON
               | Some vulns =>
                   if negb (Nat.eqb (List.length pkgs) (List.length vulns))
                   then inl (EMismatch (List.length pkgs) (List.length vulns))
                   else inr vulns
               end
           end
  end.

(** two's complement 64-bit addition *)
Definition wrap64 (z : Z) : Z := (z + 2 ^ 63) mod 2 ^ 64 - 2 ^ 63.
Definition zlen {A} (l : list A) : Z := Z.of_nat (List.length l).
(** pkgs[i:j] *)
Definition slice {A} (l : list A) (i j : Z) : res (list A) :=
  if (0 <=? i) && (i <=? j) && (j <=? zlen l)
  then Ok (firstn (Z.to_nat (j - i)) (skipn (Z.to_nat i) l)) else Panic.
(** api-check.go:153-157; running out of [fuel] stands for not terminating *)
Fixpoint batch_loop (fuel : nat) (pkgs : list Pkg) (size i : Z) : res (list (list Pkg)) :=
  if i <? zlen pkgs then
    match fuel with
    | O => Panic
    | S f =>
        rbind (slice pkgs i (Z.min (wrap64 (i + size)) (zlen pkgs))) (fun b =>
        rbind (batch_loop f pkgs size (wrap64 (i + size))) (fun bs => Ok (b :: bs)))
    end
  else Ok [].
(** api-check.go:146-160 batchPkgs.  The capacity computation divides by the
    batch size; sizes below one never get here (api.go:38-40) and count as a
    panic. *)
Definition batch_pkgs (pkgs : list Pkg) (size : Z) : res (list (list Pkg)) :=
  if size <? 1 then Panic else batch_loop (List.length pkgs) pkgs size 0.

(** api-check.go:211 OSV{ID: id} *)
Definition id_only (id : string) : OSV := mkOSV id [] "" "" "" None "" [].
(** api-check.go:162-170 findOrDefault *)
Fixpoint find_or_default (vulns : list OSV) (def : OSV) : OSV :=
  match vulns with
  | [] => def
  | v :: vs => if seqb (o_id v) (o_id def) then v else find_or_default vs def
  end.

Section WithServer.
Variable S : Sorter.
(** json.Unmarshal of an advisory: the value as far as it was filled in, and
    whether there was an error (which FetchAll ignores) *)
Variable dec_osv : string -> OSV * bool.
(** what the server may answer to a POST (url, body) or a GET (url) *)
Variable post : string -> string -> http -> Prop.
Variable get : string -> http -> Prop.

(** api-fetch.go:31-78 Fetch after sending the request *)
Definition fetch_reply (h : http) : OSV * option api_err :=
  match h with
  | HInvalid => (no_osv, Some EInvalid)
  | HFailed => (no_osv, Some EFailed)
  | HResp status body =>
      if negb (status =? 200) then (no_osv, Some (EStatus status))
      else match body with
           | None => (no_osv, Some EUnreadable)
           | Some b => let (o, bad) := dec_osv b in (o, if bad then Some ENotJSON else None)
           end
  end.

(** api-check.go:183-195 the tasks of Check *)
Definition serve_batch (db : APIDB) (batches : list (list Pkg)) (i : nat) (r : api_err + list (list string)) : Prop :=
  exists h, post (bulk_endpoint db) (payload (nth i batches [])) h /\ r = batch_reply (nth i batches []) h.
(** api-fetch-all.go:16-27 the tasks of FetchAll: the error is dropped *)
Definition serve_fetch (db : APIDB) (ids : list string) (i : nat) (r : Empty_set + OSV) : Prop :=
  exists h, get (osv_endpoint db (nth i ids "")) h /\ r = inr (fst (fetch_reply h)).

(** api-fetch-all.go:9-37 FetchAll: one complete execution, with the URLs
    requested *)
Definition fetch_all (db : APIDB) (ids : list string) (osvs : list OSV) (gets : list string) : Prop :=
  exists k s, gsteps (List.length ids) 200 (serve_fetch db ids) k (g_init (List.length ids)) s
    /\ g_done (List.length ids) s
    /\ osvs = S OSV (fun a b => str_ltb (o_id a) (o_id b))
                (map (fun o => match o with Some v => v | None => no_osv end) (g_slots s))
    /\ gets = map (fun i => osv_endpoint db (nth i ids "")) (g_sent s).

(** api-check.go:203-216: batch results to ID-only advisories per package; a
    nil slot contributes nothing *)
Definition gather (slots : list (option (list (list string)))) : list (list OSV) :=
  flat_map (fun slot => match slot with Some results => map (map id_only) results | None => [] end) slots.

(** api-check.go:172-241 Check: one complete execution, with the bodies posted
    and the URLs fetched *)
Inductive api_check (db : APIDB) (pkgs : list Pkg) : res (api_err + list (list OSV)) -> list string -> list string -> Prop :=
| check_panics : batch_pkgs pkgs (api_batch db) = Panic -> api_check db pkgs Panic [] []
| check_fails : forall batches k s e,
    batch_pkgs pkgs (api_batch db) = Ok batches ->
    gsteps (List.length batches) 100 (serve_batch db batches) k (g_init (List.length batches)) s ->
    g_done (List.length batches) s -> g_err s = Some e ->
    api_check db pkgs (Ok (inl e)) (map (fun i => payload (nth i batches [])) (g_sent s)) []
| check_works : forall batches k s osvs gets,
    batch_pkgs pkgs (api_batch db) = Ok batches ->
    gsteps (List.length batches) 100 (serve_batch db batches) k (g_init (List.length batches)) s ->
    g_done (List.length batches) s -> g_err s = None ->
    let vulnerabilities := gather (g_slots s) in
    let ids := map o_id (unique (List.concat vulnerabilities)) in
    fetch_all db ids osvs gets ->
    api_check db pkgs (Ok (inr (map (map (find_or_default osvs)) vulnerabilities)))
      (map (fun i => payload (nth i batches [])) (g_sent s)) gets.
End WithServer.
