(** Check of an API database (pkg/database/api-check.go:172-241) as a function,
    for a server that answers every request in one way: the execution in which
    the requests are made one after the other.  Used to give runs (Main.v) an
    API; that it is an execution of Api.v is proved in ApiExecProofs.v. *)
From Verif Require Import GoStr GoSort Types Osv MemDB ErrGroup Api.

Section Server.
Variable S : Sorter.
Variable dec_osv : string -> OSV * bool.
Variable post : string -> string -> http.
Variable get : string -> http.

(** the first error of the group, the results of its tasks *)
Fixpoint first_err {E A} (l : list (E + A)) : option E :=
  match l with
  | [] => None
  | inl e :: _ => Some e
  | inr _ :: l => first_err l
  end.
Definition slot {E A} (r : E + A) : option A := match r with inr a => Some a | inl _ => None end.
Definition exec_batches (db : APIDB) (batches : list (list Pkg)) : list (api_err + list (list string)) :=
  map (fun b => batch_reply b (post (bulk_endpoint db) (payload b))) batches.
Definition exec_fetch (db : APIDB) (ids : list string) : list OSV :=
  S OSV (fun a b => str_ltb (o_id a) (o_id b)) (map (fun id => fst (fetch_reply dec_osv (get (osv_endpoint db id)))) ids).
Definition api_exec (db : APIDB) (pkgs : list Pkg) : res (api_err + list (list OSV)) :=
  rbind (batch_pkgs pkgs (api_batch db)) (fun batches =>
  let replies := exec_batches db batches in
  match first_err replies with
  | Some e => Ok (inl e)
  | None =>
      let vulnerabilities := gather (map slot replies) in
      let ids := map o_id (unique (List.concat vulnerabilities)) in
      Ok (inr (map (map (find_or_default (exec_fetch db ids))) vulnerabilities))
  end).
End Server.
