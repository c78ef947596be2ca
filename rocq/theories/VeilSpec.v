(** Specification: archives kept in the cache do not show. *)
From Verif Require Import GoStr Types Json ZipDB ZipSpec DbConfig Main.

(** a server that does not change: to a request with a condition it gives the
    answer that it gives without one, or says that nothing changed (which is no
    answer to a request without a condition); downloads have an etag or a date,
    and dates are text *)
Definition steady (answer : zreq -> zresp) (u : string) : Prop :=
  (forall cond, answer (mkReq u (Some cond)) = answer (mkReq u None) \/ exists e d b, answer (mkReq u (Some cond)) = ZResp 304 e d b)
  /\ (forall e d b, answer (mkReq u None) <> ZResp 304 e d b)
  /\ forall e d b, answer (mkReq u None) = ZResp 200 e d (Some b) -> (e <> "" \/ d <> "") /\ to_valid d = d.
(** what is cached and, says the server, did not change is what it delivers *)
Definition genuine (answer : zreq -> zresp) (u : string) (file : option string) : Prop :=
  forall content c e d b, file = Some content -> fst (dec_cache content) = Some c ->
  answer (mkReq u (Some (c_etag c, c_date c))) = ZResp 304 e d b ->
  exists tag, answer (mkReq u None) = ZResp 200 tag (c_date c) (Some (bytes (c_body c))).
Definition all_genuine (E : Env) (cache : files) : Prop := forall u, genuine (w_answer (e_world E)) u (cache (e_cache_path E u)).

(** requests without their conditions *)
Definition bare (e : ev) : ev := match e with EZip q => EZip (mkReq (rq_url q) None) | _ => e end.
