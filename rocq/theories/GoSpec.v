(** go.mod: what is required, and what replaces it. *)
From Verif Require Import GoStr Types LockIO LockSpec GoLock.
Local Open Scope string_scope.

(** a version without its v *)
Definition bare (v w : string) : Prop := v = "v" +s+ w \/ v = w /\ forall r, v <> "v" +s+ r.
Definition reported (m : Module) (p : Pkg) : Prop := exists w, bare (mod_version m) w /\ p = plain_pkg (mod_path m) w "Go".
Definition mod_key (m : Module) : string := mod_path m +s+ "@" +s+ mod_version m.
(** a directive is about this requirement: of this version, or of any version
    of what it stands for now *)
Definition applies (r : Replace) (req cur : Module) : Prop :=
  mod_version (rp_old r) = "" /\ mod_path (rp_old r) = mod_path cur
  \/ mod_version (rp_old r) <> "" /\ mod_key (rp_old r) = mod_key req.
(** the directives in turn *)
Inductive replaced (req : Module) : list Replace -> Module -> Module -> Prop :=
| rp_done : forall cur, replaced req [] cur cur
| rp_apply : forall r rs cur m, applies r req cur -> replaced req rs (rp_new r) m -> replaced req (r :: rs) cur m
| rp_skip : forall r rs cur m, ~ applies r req cur -> replaced req rs cur m -> replaced req (r :: rs) cur m.
(** of requirements that read the same the last counts; without an @ in the
    paths they are the same *)
Definition required (l : list Module) (req : Module) : Prop := exists a b, l = (a ++ req :: b)%list /\ forall x, In x b -> mod_key x <> mod_key req.
Definition stands_for (f : GoMod) (p : Pkg) : Prop := exists req m, required (gm_require f) req /\ replaced req (gm_replace f) req m /\ reported m p.
(** the path of a module: no @ *)
Definition plain_path (m : Module) : Prop := has_char "@" (mod_path m) = false.
(** what Go itself takes a directive to be about *)
Definition about (r : Replace) (req : Module) : Prop :=
  mod_path (rp_old r) = mod_path req /\ (mod_version (rp_old r) = "" \/ mod_version (rp_old r) = mod_version req).
