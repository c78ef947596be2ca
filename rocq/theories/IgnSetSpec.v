(** Specification: runs that differ in how --ignore lists its IDs. *)
From Verif Require Import GoStr GoSort Types Lockfile Main MainSpec.

Definition same_ids (l l' : list string) : Prop := forall id, In id l <-> In id l'.
(** the same flags but for --ignore *)
Definition with_ignores (O : Opts) (ig : list string) : Opts :=
  mkOpts (o_offline O) (o_parse_as O) (o_config O) (o_no_config O) (o_update O) (o_no_ignores O) (o_no_dbs O) (o_version O)
    (o_list_eco O) (o_list_pkgs O) (o_json O) (o_use_dbs O) (o_use_api O) (o_batch O) ig (o_args O).
(** the same step; a check may be given the same IDs in another order *)
Inductive same_step : ev -> ev -> Prop :=
| ss_same : forall e, same_step e e
| ss_check : forall cfg dbs ig ig' raw r, same_ids ig ig' -> same_step (ECheck cfg dbs ig raw r) (ECheck cfg dbs ig' raw r).
