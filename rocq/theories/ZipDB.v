(** pkg/database/zip.go.  The warnings written to stderr are in Warnings.v. *)
From Verif Require Import GoStr Types Json JsonDec Base64 Osv MemDB.
Local Open Scope Z_scope.

(** zip.go:33-39 Cache; a nil Body is None *)
Record Cache := mkCache { c_url : string; c_etag : string; c_date : string; c_body : option string }.
Definition no_cache_fields : Cache := mkCache "" "" "" None.

(** json.Unmarshal of an array into a []byte, element by element: null leaves
    what was there, so does (as an error) what is no number up to 255 *)
Definition dec_byte (v : json) (old : ascii) : ascii * bool :=
  match v with
  | JNull => (old, false)
  | JNum lit =>
      if negb (seqb lit "") && str_forall is_digit lit && (digits_val 0 lit <=? 255)
      then (ascii_of_N (Z.to_N (digits_val 0 lit)), false) else (old, true)
  | _ => (old, true)
  end.
Fixpoint dec_byte_array (l : list json) (old : string) : string * bool :=
  match l with
  | [] => ("", false)
  | v :: l' =>
      let '(c0, old') := match old with "" => (zero, "") | String c t => (c, t) end in
      let '(c, b) := dec_byte v c0 in
      let '(r, b') := dec_byte_array l' old' in (String c r, b || b')
  end.
(** json.Unmarshal into one field: the new value, and whether there was an
    error; decoding goes on after an error *)
Definition dec_cache_field (acc : Cache * bool) (kv : string * json) : Cache * bool :=
  let '(c, bad) := acc in
  let str v old := match dec_string v old with Some s => (s, bad) | None => (old, true) end in
  let k := fold_key (fst kv) in
  if seqb k "url" then let '(s, b) := str (snd kv) (c_url c) in (mkCache s (c_etag c) (c_date c) (c_body c), b)
  else if seqb k "etag" then let '(s, b) := str (snd kv) (c_etag c) in (mkCache (c_url c) s (c_date c) (c_body c), b)
  else if seqb k "date" then let '(s, b) := str (snd kv) (c_date c) in (mkCache (c_url c) (c_etag c) s (c_body c), b)
  else if seqb k "body" then
    match snd kv with
    | JNull => (mkCache (c_url c) (c_etag c) (c_date c) None, bad)
    | JStr s => match b64_dec s with
                | Some b => (mkCache (c_url c) (c_etag c) (c_date c) (Some b), bad)
                | None => (c, true)
                end
    | JArr l => let '(b, e) := dec_byte_array l (match c_body c with Some b => b | None => "" end) in
                (mkCache (c_url c) (c_etag c) (c_date c) (Some b), bad || e)
    | _ => (c, true)
    end
  else acc.
(** zip.go:56 json.Unmarshal(content, &cache): the pointer as left behind, and
    whether there was an error.  Text that is not JSON leaves it nil, so does
    null; every other value allocates it. *)
Definition dec_cache (content : string) : option Cache * bool :=
  match parse content with
  | None => (None, true)
  | Some JNull => (None, false)
  | Some (JObj l) => let '(c, bad) := fold_left dec_cache_field l (no_cache_fields, false) in (Some c, bad)
  | Some _ => (Some no_cache_fields, true)
  end.
(** zip.go:116 json.Marshal(cache) *)
Definition cache_json (c : option Cache) : json :=
  match c with
  | None => JNull
  | Some c => JObj [("url", JStr (c_url c)); ("etag", JStr (c_etag c)); ("date", JStr (c_date c));
                    ("body", match c_body c with None => JNull | Some b => JStr (b64_enc b) end)]
  end.
Definition enc_cache (c : option Cache) : string := print (cache_json c).

(** the GET request: conditional headers if there is a cache *)
Record zreq := mkReq { rq_url : string; rq_cond : option (string * string) }.
(** http.NewRequest fails, Do fails, or a response (headers missing read as
    empty; the body may be unreadable) *)
Inductive zresp := ZInvalid | ZFailed | ZResp (status : Z) (etag date : string) (body : option string).
Inductive zerr := ZOfflineNotFound | ZRequest | ZTransport | ZStatus (n : Z) | ZBody | ZArchive.
(** what a fetch does: its outcome (bytes and UpdatedAt), what it writes to the
    cache file, and the requests made *)
Record fetched := mkF { f_result : res (zerr + string * string); f_write : option string; f_reqs : list zreq }.

Definition bytes (b : option string) : string := match b with Some s => s | None => "" end.
(** zip.go:51-128 fetchZip; [file] is the readable content of the cache file,
    [answer] what the server answers to the request *)
Definition fetch_zip (url : string) (offline : bool) (file : option string) (answer : zreq -> zresp) : fetched :=
  let cache := match file with Some content => fst (dec_cache content) | None => None end in
  if offline then
    match cache with
    | None => mkF (Ok (inl ZOfflineNotFound)) None []
    | Some c => mkF (Ok (inr (bytes (c_body c), c_date c))) None []
    end
  else
    let req := mkReq url (match cache with Some c => Some (c_etag c, c_date c) | None => None end) in
    match answer req with
    | ZInvalid => mkF (Ok (inl ZRequest)) None []
    | ZFailed => mkF (Ok (inl ZTransport)) None [req]
    | ZResp status etag date body =>
        if status =? 304 then
          match cache with
          | None => mkF Panic None [req]
          | Some c => mkF (Ok (inr (bytes (c_body c), c_date c))) None [req]
          end
        else if negb (status =? 200) then mkF (Ok (inl (ZStatus status))) None [req]
        else match body with
             | None => mkF (Ok (inl ZBody)) None [req]
             | Some b =>
                 let cache' := if negb (seqb etag "") || negb (seqb date "")
                               then Some (mkCache url etag date (Some b)) else cache in
                 mkF (Ok (inr (b, date))) (Some (enc_cache cache')) [req]
             end
    end.

Section WithArchive.
(** archive/zip: None if the bytes are no archive, else the names and contents
    (None: cannot be opened or read) of its entries *)
Variable unzip : string -> option (list (string * option string)).
(** json.Unmarshal of an advisory, as in Api.v *)
Variable dec_osv : string -> OSV * bool.

(** zip.go:142-167 loadZipFile *)
Definition load_zip_file (names : list string) (db : memDB) (e : string * option string) : memDB :=
  match snd e with
  | None => db
  | Some content => let '(o, bad) := dec_osv content in if bad then db else add_vulnerability db o names
  end.
(** zip.go:189-200 *)
Definition zip_entry (names : list string) (wd : string) (db : memDB) (e : string * option string) : memDB :=
  if negb (has_prefix (fst e) wd) then db
  else if negb (has_suffix (fst e) ".json") then db
  else load_zip_file names db e.
(** zip.go:175-203 load: the loaded advisories and UpdatedAt *)
Definition zip_load (url wd : string) (offline : bool) (names : list string) (file : option string) (answer : zreq -> zresp)
  : res (zerr + memDB * string) * option string * list zreq :=
  let f := fetch_zip url offline file answer in
  (rbind (f_result f) (fun r =>
     match r with
     | inl e => Ok (inl e)
     | inr (body, date) =>
         match unzip body with
         | None => Ok (inl ZArchive)
         | Some entries => Ok (inr (fold_left (zip_entry names wd) entries empty_db, date))
         end
     end), f_write f, f_reqs f).
End WithArchive.

(** the cache directory: readable contents by path; zip.go:44-49 cachePath is
    [path], sha256 and the temporary directory being external *)
Definition files := string -> option string.
Definition file_set (fs : files) (p : string) (c : option string) : files :=
  fun q => if seqb q p then c else fs q.
(** zip.go:120 os.WriteFile: truncates, then writes.  It may fail, or the
    process may die, before truncating or after writing any part. *)
Inductive written (old : option string) (contents : string) : option string -> Prop :=
| wr_untouched : written old contents old
| wr_part : forall p q, contents = p +s+ q -> written old contents (Some p).

(** histories of loads by any number of processes, one after another; each
    responds with what [answer] says.  The list collects the answers given with
    status 200 (url, etag, date, body). *)
Record download := mkDl { d_url : string; d_etag : string; d_date : string; d_body : string }.
Definition downloads_of (reqs : list zreq) (answer : zreq -> zresp) : list download :=
  flat_map (fun r => match answer r with
                     | ZResp 200 etag date (Some b) => [mkDl (rq_url r) etag date b]
                     | _ => []
                     end) reqs.
Inductive zip_history (path : string -> string) (fs0 : files) : files -> list download -> Prop :=
| zh_start : zip_history path fs0 fs0 []
| zh_load : forall fs ds url offline answer file' new,
    zip_history path fs0 fs ds ->
    let f := fetch_zip url offline (fs (path url)) answer in
    new = downloads_of (f_reqs f) answer ->
    match f_write f with
    | None => file' = fs (path url)
    | Some c => written (fs (path url)) c file'
    end ->
    zip_history path fs0 (file_set fs (path url) file') (ds ++ new).
