(** Specification of what a file-based database reports. *)
From Verif Require Import GoStr Types OsvSpec.

Definition osv_affects (sem : Semantic) (o : OSV) (pkg : Pkg) : Prop :=
  exists a, In a (o_affected o) /\ entry_affects sem a pkg.

(** [sel] is the sublist of [l] made of the elements satisfying [P] *)
Inductive selects {A} (P : A -> Prop) : list A -> list A -> Prop :=
| sel_nil : selects P [] []
| sel_take : forall x l sel, P x -> selects P l sel -> selects P (x :: l) (x :: sel)
| sel_skip : forall x l sel, ~ P x -> selects P l sel -> selects P (x :: l) sel.

(** [k] keeps, in order, the advisories of [l] unrelated to all kept before *)
Inductive dedup_of : list OSV -> list OSV -> Prop :=
| dd_nil : dedup_of [] []
| dd_keep : forall l k v, dedup_of l k -> (forall x, In x k -> ~ related x v) -> dedup_of (l ++ [v]) (k ++ [v])
| dd_drop : forall l k v x, dedup_of l k -> In x k -> related x v -> dedup_of (l ++ [v]) k.

(** what a check of [pkg] must report, given the advisories in load order *)
Definition reported (sem : Semantic) (os : list OSV) (pkg : Pkg) (vs : list OSV) : Prop :=
  exists sel k, selects (fun o => o_withdrawn o = None /\ osv_affects sem o pkg) os sel
    /\ dedup_of sel k /\ Forall2 osv_same k vs.

(** the version library can handle the package and every advisory, and the
    advisories are well formed *)
Record checkable (sem : Semantic) (os : list OSV) (pkg : Pkg) : Prop := {
  ck_order : VersionOrder (sem_cmp sem (p_cmp pkg));
  ck_parse : sem_ok sem (p_cmp pkg) (p_version pkg) = true;
  ck_wf : Forall (wf_osv sem (p_cmp pkg)) os
}.
