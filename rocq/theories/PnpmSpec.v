(** pnpm-lock.yaml: dependency paths and entries. *)
From Coq Require Import QArith.
From Verif Require Import GoStr Types LockIO Commit CommitSpec LockSpec PnpmLock Scan.
Local Open Scope string_scope.

(** name, or @scope/name *)
Definition plain_part (s : string) : Prop := s <> "" /\ has_char "/" s = false /\ has_char "@" s = false /\ has_char "010" s = false.
Definition pnpm_name (n : string) : Prop := plain_part n \/ exists s m, n = "@" +s+ s +s+ "/" +s+ m /\ plain_part s /\ plain_part m.
Definition number_first (v : string) : Prop := exists c t, v = String c t /\ is_digit c = true.
(** ** v5: /name/version, the peers after an underscore *)
Definition v5_peers (p : string) : Prop := p = "" \/ exists q, p = "_" +s+ q.
Definition v5_version (v : string) : Prop := number_first v /\ has_char "_" v = false /\ has_char "/" v = false.
(** ** v6: /name@version, the peers in parentheses *)
Definition v6_version (v : string) : Prop :=
  number_first v /\ str_forall (fun c => is_word c || Ascii.eqb c "." || Ascii.eqb c "-") v = true /\ has_char "_" v = false.
Inductive v6_peers : string -> Prop :=
| vp_none : v6_peers ""
| vp_peer : forall p r, has_char "(" p = false -> has_char ")" p = false -> has_char "/" p = false -> v6_peers r -> v6_peers ("(" +s+ p +s+ ")" +s+ r).
(** ** v9: name@version *)
Definition v9_version (v : string) : Prop := v <> "" /\ forall t, v <> t +s+ "'".
Inductive pnpm_path (nine : bool) : string -> string -> string -> Prop :=
| pp_file : forall f, pnpm_path nine ("file:" +s+ f) "" ""
| pp_v5 : forall reg n v p, nine = false -> has_char "/" reg = false -> (forall f, reg <> "file:" +s+ f) -> pnpm_name n -> v5_version v -> v5_peers p ->
    pnpm_path nine (reg +s+ "/" +s+ n +s+ "/" +s+ v +s+ p) n v
| pp_v6 : forall n v p, nine = false -> pnpm_name n -> v6_version v -> v6_peers p -> pnpm_path nine ("/" +s+ n +s+ "@" +s+ v +s+ p) n v
| pp_v9 : forall q n v, nine = true -> (q = "" \/ q = "'") -> npm_name n -> (forall t, n <> "'" +s+ t) -> (forall t, n <> "file:" +s+ t) -> v9_version v -> pnpm_path nine (q +s+ n +s+ "@" +s+ v +s+ q) n v.
(** ** entries *)
Definition codeload (tarball c : string) : Prop :=
  (exists t, tarball = "https://codeload.github.com" +s+ t)
  /\ exists p o r, repo_name o /\ repo_name r /\ word c /\ tarball = p +s+ "https://codeload.github.com/" +s+ o +s+ "/" +s+ r +s+ "/tar.gz/" +s+ c.
Definition pnpm_commit_of (d : PnpmPackage) (c : string) : Prop := codeload (pn_tarball d) c \/ ((forall x, ~ codeload (pn_tarball d) x) /\ c = pn_commit d).
(** the field, or else what the path says *)
Definition field_or (field path v : string) : Prop := field <> "" /\ v = field \/ field = "" /\ v = path.
Definition pnpm_entry (nine : bool) (d : string * PnpmPackage) (o : option Pkg) : Prop :=
  exists pn pv n v, pnpm_path nine (fst d) pn pv /\ field_or (pn_name (snd d)) pn n /\ field_or (pn_version (snd d)) pv v
    /\ ((n = "" \/ v = "") /\ o = None \/ n <> "" /\ v <> "" /\ exists c, pnpm_commit_of (snd d) c /\ o = Some (mkPkg n v c "npm" "npm")).
(** not a path at all *)
Definition no_path (path : string) : Prop := has_char "/" path = false /\ forall f, path <> "file:" +s+ f.
(** a scope and no name *)
Definition bare_scope (path : string) : Prop :=
  exists a s, path = a +s+ "/@" +s+ s /\ has_char "/" a = false /\ has_char "/" s = false /\ forall f, path <> "file:" +s+ f.
(** the file holds this lockfile *)
Definition pnpm_file (files : string -> txt) (float : string -> option Q) (yaml : string -> option (option (option (string * option (list (string * PnpmPackage))))))
    (path : string) (v : Q) (l : list (string * PnpmPackage)) : Prop :=
  exists content version, files path = Text content false /\ yaml content = Some (Some (Some (version, Some l))) /\ float version = Some v.
