(** pkg/database/mem-check.go, and the loading of parsed advisories shared by
    pkg/database/zip.go and pkg/database/dir.go. *)
From Verif Require Import GoStr GoSort Types Osv.

(** mem-check.go:9-12 memDB.  Copies of one advisory in several buckets share
    their Affected slice, whose events containsVersion reorders in place; the
    model therefore keeps every loaded advisory once, in [m_heap], and buckets
    hold positions in it. *)
Record memDB := mkDB { m_heap : list OSV; m_vulns : list (string * list nat); m_count : nat }.

Definition empty_db : memDB := mkDB [] [] 0.

(** reading and writing a Go map[string][]T held as an association list; Go
    leaves the iteration order unspecified, and so do the theorems *)
Fixpoint map_get {A} (k : string) (m : list (string * A)) : option A :=
  match m with
  | [] => None
  | (k', v) :: m' => if seqb k' k then Some v else map_get k m'
  end.
Fixpoint map_set {A} (k : string) (v : A) (m : list (string * A)) : list (string * A) :=
  match m with
  | [] => [(k, v)]
  | (k', v') :: m' => if seqb k' k then (k, v) :: m' else (k', v') :: map_set k v m'
  end.

(** zip.go:130-138 mightAffectPackages *)
Definition might_affect_packages (v : OSV) (names : list string) : bool :=
  existsb (fun a => mem (normalized_name (a_pkg a)) names) (o_affected v).

(** mem-check.go:24 *)
Definition store_hash (a : Affected) : string :=
  normalized_ecosystem (a_pkg a) +s+ "-" +s+ normalized_name (a_pkg a).

(** mem-check.go:23-32 one iteration *)
Definition add_to_bucket (addr : nat) (m : list (string * list nat)) (a : Affected)
  : list (string * list nat) :=
  let hash := store_hash a in
  let vulns := match map_get hash m with Some l => l | None => [] end in
  map_set hash (vulns ++ [addr]) m.

(** mem-check.go:14-33 addVulnerability *)
Definition add_vulnerability (db : memDB) (o : OSV) (names : list string) : memDB :=
  if negb (Nat.eqb (List.length names) 0) && negb (might_affect_packages o names)
  then mkDB (m_heap db) (m_vulns db) (m_count db + 1)
  else mkDB (m_heap db ++ [o])
            (fold_left (add_to_bucket (List.length (m_heap db))) (o_affected o) (m_vulns db))
            (m_count db + 1).

(** the loop of ZipDB.load / DirDB.load over the advisories that parsed
    (zip.go:190-200, dir.go:49-84), starting from the empty map of zip.go:176 *)
Definition load_all (names : list string) (os : list OSV) : memDB :=
  fold_left (fun db o => add_vulnerability db o names) os empty_db.

(** a dangling position never occurs; it reads as an empty advisory *)
Definition no_osv : OSV := mkOSV "" [] "" "" "" None "" [].
Definition deref (h : list OSV) (i : nat) : OSV := nth i h no_osv.

(** mem-check.go:35-53 Vulnerabilities; [entries] is the map in iteration order *)
Definition list_step (h : list OSV) (incl : bool) (acc : list OSV * list string) (i : nat)
  : list OSV * list string :=
  let '(vs, ids) := acc in
  let v := deref h i in
  if mem (o_id v) ids then acc
  else if (match o_withdrawn v with None => true | Some _ => false end) || incl
       then (vs ++ [v], o_id v :: ids)
       else acc.
Definition vulnerabilities (h : list OSV) (entries : list (string * list nat)) (incl : bool) : list OSV :=
  fst (fold_left (list_step h incl) (flat_map snd entries) ([], [])).

Fixpoint heap_set (h : list OSV) (i : nat) (o : OSV) : list OSV :=
  match h, i with
  | [], _ => []
  | _ :: h', O => o :: h'
  | x :: h', S i' => x :: heap_set h' i' o
  end.

Section WithSort.
Variable S : Sorter.

(** mem-check.go:61-65 one bucket, threading the advisories' state *)
Fixpoint bucket_loop (sem : Semantic) (pkg : Pkg) (h : list OSV) (addrs : list nat) (acc : list OSV)
  : res (list OSV * list OSV) :=
  match addrs with
  | [] => Ok (acc, h)
  | i :: addrs' =>
      let v := deref h i in
      match o_withdrawn v with
      | Some _ => bucket_loop sem pkg h addrs' acc
      | None =>
          rbind (is_affected S sem v pkg) (fun '(b, v') =>
            let h' := heap_set h i v' in
            if b && negb (includes acc v')
            then bucket_loop sem pkg h' addrs' (acc ++ [v'])
            else bucket_loop sem pkg h' addrs' acc)
      end
  end.

(** mem-check.go:55-69 VulnerabilitiesAffectingPackage *)
Definition vulnerabilities_affecting (sem : Semantic) (db : memDB) (pkg : Pkg)
  : res (list OSV * memDB) :=
  match map_get (p_eco pkg +s+ "-" +s+ p_name pkg) (m_vulns db) with
  | Some addrs =>
      rbind (bucket_loop sem pkg (m_heap db) addrs []) (fun '(vs, h) =>
        Ok (vs, mkDB h (m_vulns db) (m_count db)))
  | None => Ok ([], db)
  end.

(** mem-check.go:71-79 Check (its error is always nil) *)
Fixpoint check (sem : Semantic) (db : memDB) (pkgs : list Pkg) : res (list (list OSV) * memDB) :=
  match pkgs with
  | [] => Ok ([], db)
  | p :: pkgs' =>
      rbind (vulnerabilities_affecting sem db p) (fun '(vs, db1) =>
      rbind (check sem db1 pkgs') (fun '(rest, db2) => Ok (vs :: rest, db2)))
  end.
End WithSort.

(** any sequence of completed checks *)
Inductive history (S : Sorter) (sem : Semantic) : memDB -> memDB -> Prop :=
| hist_nil : forall db, history S sem db db
| hist_check : forall db pkgs rs db1 db2,
    check S sem db pkgs = Ok (rs, db1) -> history S sem db1 db2 -> history S sem db db2.

