(** Specification of runs that ask an API: what its server lists for a package
    and what it tells about an advisory. *)
From Verif Require Import GoStr Types Osv MemDB Api ApiSpec DbConfig Configer Lockfile Report Main MainSpec EndSpec.
Local Open Scope Z_scope.

Section Server.
Variable post : string -> string -> http -> Prop.
Variable get : string -> http -> Prop.

(** each check of the run that asks an API is an execution of it against this
    server *)
Definition served (E : Env) : Prop := forall k a pkgs, exists posts gets,
  api_check (e_sort E) (w_dec_osv (e_world E)) post get a pkgs (e_api E k a pkgs) posts gets.
(** the server answers the same question the same way *)
Definition settled : Prop := (forall u b h h', post u b h -> post u b h' -> h = h') /\ (forall u h h', get u h -> get u h' -> h = h').
(** the database that a config of type api stands for *)
Definition api_of (E : Env) (O : Opts) (d : DBConfig) (a : APIDB) : Prop :=
  exists name u, w_parse_uri (e_world E) (dc_url d) = Some u /\ a = mkAPI name (identifier d) u (o_batch O).
(** asked about the packages, in batches, the server answers every batch usably *)
Definition answered (a : APIDB) (pkgs : list Pkg) (idss : list (list string)) : Prop :=
  exists batches answers, batches_of (api_batch a) pkgs batches
    /\ Forall2 (fun b ids => exists h, post (bulk_endpoint a) (payload b) h /\ good_answer b h ids) batches answers
    /\ idss = List.concat answers.
(** some batch is not answered usably *)
Definition unanswered (a : APIDB) (pkgs : list Pkg) : Prop :=
  exists batches b, batches_of (api_batch a) pkgs batches /\ In b batches
    /\ forall h, post (bulk_endpoint a) (payload b) h -> exists e, bad_answer b h e.
(** it lists the ID for the [i]-th package *)
Definition lists (a : APIDB) (pkgs : list Pkg) (i : nat) (id : string) : Prop :=
  exists idss ids, answered a pkgs idss /\ nth_error idss i = Some ids /\ In id ids.
(** what is known of a listed ID: the details sent for an ID that was listed, if
    they are about this one; the ID alone if the details sent for it are not *)
Inductive told (dec : string -> OSV * bool) (a : APIDB) (pkgs : list Pkg) (id : string) (o : OSV) : Prop :=
| told_details : forall i q h, lists a pkgs i q -> get (osv_endpoint a q) h -> received dec h o -> o_id o = id -> told dec a pkgs id o
| told_nothing : forall h d, get (osv_endpoint a id) h -> received dec h d -> o_id d <> id -> o = id_only id -> told dec a pkgs id o.
(** an advisory is reported because the server listed it for the package *)
Definition api_grounds (E : Env) (O : Opts) (d : DBConfig) (l : Lockfile) (p : Pkg) (v : OSV) : Prop :=
  dc_type d = "api" /\ o_offline O = false /\ exists a i, api_of E O d a /\ nth_error (lf_pkgs l) i = Some p
    /\ lists a (lf_pkgs l) i (o_id v) /\ told (w_dec_osv (e_world E)) a (lf_pkgs l) (o_id v) v.
End Server.
(** no Go slice is longer than 2^62, no int larger than 2^63 - 1 *)
Definition fits (O : Opts) (l : Lockfile) : Prop := o_batch O < 2 ^ 63 /\ zlen (lf_pkgs l) <= 2 ^ 62.
