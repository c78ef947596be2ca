(** Specification: runs that differ in --batch-size. *)
From Verif Require Import GoStr GoSort Types Osv Api ApiSpec Lockfile Report Main MainSpec ApiRunSpec.
Local Open Scope Z_scope.

Definition with_batch (O : Opts) (n : Z) : Opts :=
  mkOpts (o_offline O) (o_parse_as O) (o_config O) (o_no_config O) (o_update O) (o_no_ignores O) (o_no_dbs O) (o_version O)
    (o_list_eco O) (o_list_pkgs O) (o_json O) (o_use_dbs O) (o_use_api O) n (o_ignores O) (o_args O).
(** the same database but for the batch size *)
Definition same_server (a b : APIDB) : Prop := api_name a = api_name b /\ api_ident a = api_ident b /\ api_url a = api_url b.
(** a server that answers usably, and for each package of a batch as if it were
    alone *)
Definition one_by_one (post : string -> string -> http -> Prop) (url : string) (answer : Pkg -> list string) : Prop :=
  forall b h, post url (payload b) h -> good_answer b h (map answer b).
(** API databases give the same answers with batches of [n] and of [m] *)
Definition indifferent (E : Env) (n m : Z) : Prop := forall k a b pkgs,
  same_server a b -> api_batch a = n -> api_batch b = m -> zlen pkgs <= 2 ^ 62 -> e_api E k a pkgs = e_api E k b pkgs.
(** what is said of an API database *)
Definition sizes (E : Env) (n : Z) : string := "using batches of " +s+ e_col E "yellow" (dec_of_Z n).
Inductive rebatched (E : Env) (n m : Z) : ev -> ev -> Prop :=
| rb_same : forall e, rebatched E n m e e
| rb_api : forall a b pkgs, same_server a b -> rebatched E n m (EApi a pkgs) (EApi b pkgs)
| rb_text : forall st pre post, rebatched E n m (EOut KText st (pre +s+ sizes E n +s+ post)) (EOut KText st (pre +s+ sizes E m +s+ post)).
(** no lockfile lists more packages than a Go slice can have *)
Definition bounded (E : Env) (O : Opts) : Prop := forall p l e, parse_lockfile E O p = Ok (l, e) -> zlen (lf_pkgs l) <= 2 ^ 62.
