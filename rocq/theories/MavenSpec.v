(** pom.xml: what it declares and what is reported. *)
From Verif Require Import GoStr Types Scan LockIO LockSpec MavenLock.
Local Open Scope string_scope.

(** ** the document *)
Inductive text_in : list xnode -> string -> Prop :=
| ti_nil : text_in [] ""
| ti_text : forall s r t, text_in r t -> text_in (XText s :: r) (s +s+ t)
| ti_elem : forall n k r t, text_in r t -> text_in (XElem n k :: r) t.
(** the last element of a name *)
Definition last_child (n : string) (cs kids : list xnode) : Prop := exists a b, cs = (a ++ XElem n kids :: b)%list /\ forall k, ~ In (XElem n k) b.
Definition no_child (n : string) (cs : list xnode) : Prop := forall k, ~ In (XElem n k) cs.
Definition field (n : string) (cs : list xnode) (v : string) : Prop := no_child n cs /\ v = "" \/ exists kids, last_child n cs kids /\ text_in kids v.
Record dep := mkDep { dep_group : string; dep_artifact : string; dep_version : string }.
Definition dep_key (d : dep) : string := dep_group d +s+ ":" +s+ dep_artifact d.
Definition declares (cs : list xnode) (d : dep) : Prop := field "groupId" cs (dep_group d) /\ field "artifactId" cs (dep_artifact d) /\ field "version" cs (dep_version d).
(** the elements at the end of a path, in the document's order *)
Inductive at_path : list string -> list xnode -> list (list xnode) -> Prop :=
| ap_here : forall cs, at_path [] cs [cs]
| ap_nil : forall n p, at_path (n :: p) [] []
| ap_in : forall n p kids r a b, at_path p kids a -> at_path (n :: p) r b -> at_path (n :: p) (XElem n kids :: r) (a ++ b)
| ap_text : forall n p s r b, at_path (n :: p) r b -> at_path (n :: p) (XText s :: r) b
| ap_other : forall n p m kids r b, m <> n -> at_path (n :: p) r b -> at_path (n :: p) (XElem m kids :: r) b.
Definition declared_at (path : list string) (cs : list xnode) (ds : list dep) : Prop := exists es, at_path path cs es /\ Forall2 declares es ds.
(** all that is declared, first the managed dependencies *)
Definition declared (cs : list xnode) (ds : list dep) : Prop :=
  exists managed direct, declared_at ["dependencyManagement"; "dependencies"; "dependency"] cs managed
    /\ declared_at ["dependencies"; "dependency"] cs direct /\ ds = (managed ++ direct)%list.
(** the last of a key counts *)
Definition wins (ds : list dep) (d : dep) : Prop := exists a b, ds = (a ++ d :: b)%list /\ forall e, In e b -> dep_key e <> dep_key d.
Definition property (cs : list xnode) (n v : string) : Prop := exists ps, last_child "properties" cs ps /\ exists kids, last_child n ps kids /\ text_in kids v.
Definition no_property (cs : list xnode) (n : string) : Prop := forall v, ~ property cs n v.

(** ** versions *)
Definition stop (c : ascii) : Prop := In c [","%char; ")"%char; "]"%char].
Definition free (s : string) : Prop := forall a c b, s = a +s+ String c b -> ~ stop c.
Definition opening (c : ascii) : Prop := c = "["%char \/ c = "("%char.
(** [v]: what comes before the first comma or closing bracket, on its line, after
    an opening bracket *)
Definition lower_bound (s v : string) : Prop :=
  exists pre br t, s = pre +s+ br +s+ v +s+ t
    /\ (pre = "" \/ exists p, pre = p +s+ String "010" "") /\ free pre
    /\ ((exists c, opening c /\ br = String c "") \/ br = "" /\ forall c r, v +s+ t = String c r -> ~ opening c)
    /\ has_char "010" v = false /\ free v
    /\ (t = "" \/ exists c r, t = String c r /\ stop c).
Definition or_zero (v w : string) : Prop := v = "" /\ w = "0" \/ v <> "" /\ w = v.
(** [p] is in braces after a dollar sign, the first such and as long as possible *)
Definition braced (s a p b : string) : Prop := s = a +s+ "${" +s+ p +s+ "}" +s+ b /\ p <> "" /\ has_char "010" p = false.
Definition interpolates (s p : string) : Prop :=
  exists a b, braced s a p b /\ (forall a' p' b', braced s a' p' b' -> String.length a <= String.length a') /\ (forall p' b', braced s a p' b' -> String.length p' <= String.length p).
Definition interpolates_none (s : string) : Prop := forall a p b, ~ braced s a p b.
Inductive version_of (cs : list xnode) (d : dep) : string -> list string -> Prop :=
| vo_literal : forall b v, interpolates_none (dep_version d) -> lower_bound (dep_version d) b -> or_zero b v -> version_of cs d v []
| vo_property : forall p val b v, interpolates (dep_version d) p -> property cs p val -> lower_bound val b -> or_zero b v -> version_of cs d v []
| vo_missing : forall p, interpolates (dep_version d) p -> no_property cs p ->
    version_of cs d "0" ["Failed to resolve version of " +s+ dep_key d +s+ ": property """ +s+ p +s+ """ could not be found
"].
Definition maven_pkg (cs : list xnode) (d : dep) (p : Pkg) (said : list string) : Prop :=
  exists v, version_of cs d v said /\ p = plain_pkg (dep_key d) v "Maven".
