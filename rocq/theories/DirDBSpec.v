(** Specification of directory trees and of what a dir database loads. *)
From Verif Require Import GoStr GoSort Types DirDB.

(** the node at a relative path *)
Inductive at_path : node -> list string -> node -> Prop :=
| ap_here : forall n, at_path n [] n
| ap_below : forall l k c p m, In (k, c) l -> at_path c p m -> at_path (NDir (Some l)) (k :: p) m.
(** a directory lists distinct names in order *)
Inductive sorted_node : node -> Prop :=
| sn_gone : sorted_node NGone
| sn_file : forall c, sorted_node (NFile c)
| sn_unlisted : sorted_node (NDir None)
| sn_dir : forall l, StronglySorted (fun a b => str_ltb (fst a) (fst b) = true) l ->
    Forall (fun kc => sorted_node (snd kc)) l -> sorted_node (NDir (Some l)).
(** order of paths, element by element *)
Inductive path_lt : list string -> list string -> Prop :=
| pl_nil : forall x p, path_lt [] (x :: p)
| pl_head : forall x y p q, str_ltb x y = true -> path_lt (x :: p) (y :: q)
| pl_tail : forall x p q, path_lt p q -> path_lt (x :: p) (x :: q).
(** a readable file called *.json at a path below (or at) [root], holding [o] *)
Definition advisory_at (dec_osv : string -> OSV * bool) (name : string) (root : node) (p : list string) (o : OSV) : Prop :=
  exists content, at_path root p (NFile (Some content)) /\ (exists stem, last p name = stem +s+ ".json")
    /\ dec_osv content = (o, false).
(** something below [root] disappeared *)
Definition vanished (root : node) : Prop := exists p, at_path root p NGone.
