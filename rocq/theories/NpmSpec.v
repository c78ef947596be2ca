(** package-lock.json: what the dependency trees and package maps list. *)
From Verif Require Import GoStr Types Json LockIO Commit CommitSpec LockSpec NpmLock.

(** ** v1: dependencies *)
(** name and version of a dependency at any depth *)
Inductive dep_in : list (string * NpmDep) -> string -> string -> Prop :=
| di_here : forall l n v ds, In (n, mkNpmDep v ds) l -> dep_in l n v
| di_below : forall l n v l' n' v', In (n, mkNpmDep v (Some l')) l -> dep_in l' n' v' -> dep_in l n' v'.
(** npm:name@version is a dependency under another name *)
Inductive real_dep (n v : string) : string -> string -> Prop :=
| rd_plain : (forall t, v <> "npm:" +s+ t) -> real_dep n v n v
| rd_alias : forall m w, v = "npm:" +s+ m +s+ "@" +s+ w -> has_char "@" w = false -> real_dep n v m w.
(** the package of a dependency, and what tells it from others of its name:
    the commit, or else the version as it stands *)
Inductive npm_dep (url : string -> option Url) (n v : string) : string -> Pkg -> Prop :=
| nd_file : forall f, v = "file:" +s+ f -> npm_dep url n v v (mkPkg n "" "" "npm" "npm")
| nd_plain : forall m w, (forall f, v <> "file:" +s+ f) -> real_dep n v m w -> resolution_commit url v "" -> npm_dep url n v v (mkPkg m w "" "npm" "npm")
| nd_commit : forall m w c, (forall f, v <> "file:" +s+ f) -> real_dep n v m w -> resolution_commit url v c -> c <> "" ->
    npm_dep url n v c (mkPkg m "" c "npm" "npm").
Definition listed (url : string -> option Url) (deps : list (string * NpmDep)) (k : string) (p : Pkg) : Prop :=
  exists n v i, dep_in deps n v /\ npm_dep url n v i p /\ k = p_name p +s+ "@" +s+ i.
(** names are package names, and no key is both a version and a commit *)
Definition sound_deps (url : string -> option Url) (deps : list (string * NpmDep)) : Prop :=
  (forall k p, listed url deps k p -> npm_name (p_name p)) /\ (forall k p q, listed url deps k p -> listed url deps k q -> p_commit p = "" -> p_commit q = "").
(** an alias that names nothing *)
Definition bad_alias (v : string) : Prop := exists t, v = "npm:" +s+ t /\ has_char "@" t = false.
Definition npm_keys : list string := ["lockfileversion"; "dependencies"; "packages"].
Inductive npm_dep_doc : NpmDep -> json -> Prop :=
| dd_leaf : forall v w j, opt_member "version" v w -> obj ["version"; "dependencies"] w j -> npm_dep_doc (mkNpmDep v None) j
| dd_deps : forall v w l d j, opt_member "version" v w -> obj ["version"; "dependencies"] (w ++ [("dependencies", d)]) j ->
    jmap npm_dep_doc l d -> npm_dep_doc (mkNpmDep v (Some l)) j.
Definition npm_doc1 (deps : list (string * NpmDep)) (j : json) : Prop :=
  exists ver d, opt_number "lockfileversion" ver /\ obj npm_keys (ver ++ [("dependencies", d)]) j /\ jmap npm_dep_doc deps d.

(** ** v2 and later: packages *)
(** the name in a path: its last element, with the scope before it *)
Definition path_elem (e : string) : Prop := e <> "" /\ e <> "." /\ e <> ".." /\ has_char "/" e = false.
Inductive path_name : list string -> string -> Prop :=
| pn_scoped : forall pre s e, path_elem ("@" +s+ s) -> path_elem e -> path_name (pre ++ ["@" +s+ s; e]) ("@" +s+ s +s+ "/" +s+ e)
| pn_plain : forall pre d e, (forall t, d <> "@" +s+ t) -> path_elem e -> path_name (pre ++ [d; e]) e
| pn_alone : forall e, path_elem e -> path_name [e] e.
(** a relative path: some .. and then elements *)
Definition rel_path (l : list string) (path : string) : Prop :=
  exists n es, l = repeat ".." n ++ es /\ Forall path_elem es /\ l <> [] /\ path = join "/" l.
Inductive npm_package_of (url : string -> option Url) (path : string) (d : NpmPackage) : Pkg -> Prop :=
| npo : forall name c, np_name d = name /\ name <> "" \/ np_name d = "" /\ (forall l n, rel_path l path -> path_name l n -> name = n) ->
    resolution_commit url (np_resolved d) c -> npm_package_of url path d (mkPkg name (np_version d) c "npm" "npm").
(** name@commit, or name@version *)
Definition npm_id (p : Pkg) : string := p_name p +s+ "@" +s+ (if seqb (p_commit p) "" then p_version p else p_commit p).
Definition npm_package_doc (p : NpmPackage) (j : json) : Prop :=
  exists w1 w2 w3 w4, opt_member "name" (np_name p) w1 /\ opt_member "version" (np_version p) w2 /\ opt_member "resolved" (np_resolved p) w3
    /\ (w4 = [] \/ exists ds d, w4 = [("dependencies", d)] /\ jmap (fun s v => v = JStr s) ds d)
    /\ obj ["name"; "version"; "resolved"; "dependencies"] (w1 ++ w2 ++ w3 ++ w4) j.
(** v2 files have the dependencies as well *)
Definition npm_doc2 (ps : list (string * NpmPackage)) (j : json) : Prop :=
  exists ver p w, opt_number "lockfileversion" ver /\ (w = [] \/ exists ds d, w = [("dependencies", d)] /\ jmap npm_dep_doc ds d)
    /\ obj npm_keys (ver ++ [("packages", p)] ++ w) j /\ jmap npm_package_doc ps p.
