(** pkg/database/config.go and the database constructors. *)
From Verif Require Import GoStr Types MemDB Path Api ZipDB DirDB.

(** config.go:8-13 *)
Record DBConfig := mkDC { dc_name : string; dc_type : string; dc_url : string; dc_wd : string }.
(** config.go:17-25 Identifier *)
Definition identifier (c : DBConfig) : string :=
  dc_type c +s+ "#" +s+ dc_url c +s+ (if negb (seqb (dc_wd c) "") then "#" +s+ dc_wd c else "").

(** a loaded database (the DB interface, db.go): name, identifier, contents *)
Inductive DB :=
| ZipD (name ident : string) (db : memDB) (updated : string)
| ApiD (a : APIDB)
| DirD (name ident : string) (db : memDB).
(** zip.go, api.go, dir.go: Name and Identifier *)
Definition db_name (d : DB) : string :=
  match d with ZipD n _ _ _ => n | ApiD a => api_name a | DirD n _ _ => n end.
Definition db_ident (d : DB) : string :=
  match d with ZipD _ i _ _ => i | ApiD a => api_ident a | DirD _ i _ => i end.

Inductive load_err := LZip (e : zerr) | LApi (e : new_err) | LDir (e : dir_err) | LType (t : string).

(** everything outside the program a database load depends on *)
Record World := mkWorld {
  w_parse_uri : string -> option URL;                          (* url.ParseRequestURI *)
  w_unzip : string -> option (list (string * option string));  (* archive/zip *)
  w_dec_osv : string -> OSV * bool;                            (* json.Unmarshal of an advisory *)
  w_answer : zreq -> zresp;                                    (* the archive servers *)
  w_tree : string -> node }.                                   (* the file system, for dir databases *)

(** config.go:30-41 Load with zip.go:205-219 NewZippedDB, api.go:33-54
    NewAPIDB, dir.go:97-110 NewDirDB.  [cache] is the content of the cache file
    of the URL; also returned: what is written to it, and the requests made. *)
Definition load_db (W : World) (cache : option string) (c : DBConfig) (offline : bool) (batch : Z) (names : list string)
  : res (load_err + DB) * option string * list zreq :=
  if seqb (dc_type c) "zip" then
    let '(r, w, reqs) := zip_load (w_unzip W) (w_dec_osv W) (dc_url c) (dc_wd c) offline names cache (w_answer W) in
    (rbind r (fun x => match x with
                       | inl e => Ok (inl (LZip e))
                       | inr (db, date) => Ok (inr (ZipD (dc_name c) (identifier c) db date))
                       end), w, reqs)
  else if seqb (dc_type c) "api" then
    (match new_api_db (w_parse_uri W) (dc_name c) (identifier c) (dc_url c) offline batch with
     | inl e => Ok (inl (LApi e))
     | inr a => Ok (inr (ApiD a))
     end, None, [])
  else if seqb (dc_type c) "dir" then
    (match dir_load (w_dec_osv W) (w_parse_uri W) (w_tree W) (dc_url c) (dc_wd c) names with
     | inl e => Ok (inl (LDir e))
     | inr db => Ok (inr (DirD (dc_name c) (identifier c) db))
     end, None, [])
  else (Ok (inl (LType (dc_type c))), None, []).

(** main.go:132-158 uniqueDBConfigs (of the configs' database lists) *)
Definition add_unique (acc : list DBConfig) (c : DBConfig) : list DBConfig :=
  if existsb (fun d => seqb (identifier d) (identifier c)) acc then acc else acc ++ [c].
Definition unique_db_configs (configs : list (list DBConfig)) : list DBConfig :=
  fold_left (fun acc dbs => fold_left add_unique dbs acc) configs [].
