(** Specification: a run without network after one with. *)
From Verif Require Import GoStr Types Json ZipDB DbConfig Main.

(** the same flags, with --offline *)
Definition with_offline (O : Opts) : Opts :=
  mkOpts true (o_parse_as O) (o_config O) (o_no_config O) (o_update O) (o_no_ignores O) (o_no_dbs O) (o_version O)
    (o_list_eco O) (o_list_pkgs O) (o_json O) (o_use_dbs O) (o_use_api O) (o_batch O) (o_ignores O) (o_args O).

(** everything in a trace but the requests for archives *)
Definition is_request (e : ev) : bool := match e with EZip _ => true | _ => false end.
Definition without_requests (tr : list ev) : list ev := filter (fun e => negb (is_request e)) tr.

(** the URLs of the archives among databases *)
Definition archive_urls (cs : list DBConfig) : list string := flat_map (fun c => if seqb (dc_type c) "zip" then [dc_url c] else []) cs.
Definition twice {A} (x : A) (l : list A) : Prop := exists a b c, l = a ++ x :: b ++ x :: c.

(** a download comes with an etag or a date, and the date is text *)
Definition dated (answer : zreq -> zresp) (url : string) : Prop :=
  forall cond e d b, answer (mkReq url cond) = ZResp 200 e d (Some b) -> (e <> "" \/ d <> "") /\ to_valid d = d.
(** asked again right away, the server says that the download is still current *)
Definition rechecked (answer : zreq -> zresp) (url : string) : Prop :=
  forall cond e d b, answer (mkReq url cond) = ZResp 200 e d (Some b) ->
  exists e' d' b', answer (mkReq url (Some (to_valid e, to_valid d))) = ZResp 304 e' d' b'.
