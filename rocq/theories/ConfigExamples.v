(** A concrete codec for config files (JSON, which is YAML) and concrete
    configurations used by the examples beside the theorems. *)
From Verif Require Import GoStr Types Json JsonDec Path Api DirDB DbConfig Configer OsvExamples.

Definition yj_raw (r : raw_db) : json :=
  JObj [("url", JStr (rd_url r)); ("name", JStr (rd_name r)); ("type", JStr (rd_type r)); ("working-directory", JStr (rd_wd r))].
Definition yj_enc (c : raw_config) : string :=
  print (JObj [("ignore", JArr (map JStr (rc_ignore c))); ("extra-databases", JArr (map yj_raw (rc_dbs c)))]).
Definition yj_set_raw (k : string) (v : json) (r : raw_db) : option raw_db :=
  if seqb k "url" then option_map (fun s => mkRD s (rd_name r) (rd_type r) (rd_wd r)) (dec_string v "")
  else if seqb k "name" then option_map (fun s => mkRD (rd_url r) s (rd_type r) (rd_wd r)) (dec_string v "")
  else if seqb k "type" then option_map (fun s => mkRD (rd_url r) (rd_name r) s (rd_wd r)) (dec_string v "")
  else if seqb k "working-directory" then option_map (fun s => mkRD (rd_url r) (rd_name r) (rd_type r) s) (dec_string v "")
  else Some r.
Definition yj_set (k : string) (v : json) (c : raw_config) : option raw_config :=
  if seqb k "ignore" then option_map (fun l => mkRC l (rc_dbs c)) (dec_list (fun x => dec_string x "") v)
  else if seqb k "extra-databases" then option_map (fun l => mkRC (rc_ignore c) l) (dec_list (dec_struct yj_set_raw (mkRD "" "" "" "")) v)
  else Some c.
(** an empty document is an empty config *)
Definition yj_dec (s : string) : option raw_config :=
  if seqb s "" then Some (mkRC [] []) else
  match parse s with Some j => dec_struct yj_set (mkRC [] []) j | None => None end.

Definition ex_parse_uri (s : string) : option URL :=
  match cut_at ":" s with Some (_, p) => Some (mkURL p (fun x => x)) | None => None end.
Definition ex_raws : list raw_db :=
  [mkRD "https://x/a.zip" "" "" "npm/"; mkRD "not a url" "" "" ""; mkRD "https://x" "mine" "ftp" ""; mkRD "file:/db" "local" "" ""].
Definition ex_raw : raw_config := mkRC ["CVE-1"] ex_raws.
Definition ex_dbs : list DBConfig :=
  [mkDC "zip#https://x/a.zip#npm/" "zip" "https://x/a.zip" "npm/"; mkDC "local" "dir" "file:/db" ""].
(** a tree with nested directories, an unreadable file, text, and a directory
    called like an advisory *)
Definition ex_tree : node :=
  NDir (Some [("a.json", NFile (Some "good"));
              ("b", NDir (Some [("c.json", NDir (Some [("d.json", NFile (Some "alias"))])); ("e.json", NFile None); ("readme", NFile (Some "good"))]));
              ("b.json", NFile (Some "bad")); ("z", NDir None)]).
Definition ex_dec (s : string) : OSV * bool := if seqb s "good" then (ex_osv, false) else if seqb s "alias" then (ex_alias, false) else (ex_pypi, true).
