(** What the list- and map-shaped lockfiles list. *)
From Verif Require Import GoStr Types Json MemDB Scan LockIO ListLocks KeyLocks PkgMapSpec FitSpec.
From Verif Require JsonSpec.

Definition plain_pkg (name version eco : string) : Pkg := mkPkg name version "" eco eco.
Definition name_at (p : Pkg) : string := p_name p +s+ "@" +s+ p_version p.

(** ** JSON documents *)
(** the members: those wanted, in order, and any others under keys not in [ks];
    Go matches keys ignoring case *)
Inductive shape (ks : list string) : list (string * json) -> list (string * json) -> Prop :=
| sh_nil : shape ks [] []
| sh_take : forall k k' v w l, fold_key k' = k -> shape ks w l -> shape ks ((k, v) :: w) ((k', v) :: l)
| sh_skip : forall k v w l, ~ In (fold_key k) ks -> shape ks w l -> shape ks w ((k, v) :: l).
Definition obj (ks : list string) (wanted : list (string * json)) (j : json) : Prop := exists l, j = JObj l /\ shape ks wanted l.
(** an object used as a map *)
Definition jmap {A} (P : A -> json -> Prop) (m : list (string * A)) (j : json) : Prop :=
  exists l, j = JObj l /\ NoDup (map fst l) /\ Forall2 (fun e kv => fst e = fst kv /\ P (snd e) (snd kv)) m l.
Definition jlist {A} (P : A -> json -> Prop) (es : list A) (j : json) : Prop := exists l, j = JArr l /\ Forall2 P es l.
(** a string member that may be left out *)
Definition opt_member (k v : string) (w : list (string * json)) : Prop := w = [(k, JStr v)] \/ (w = [] /\ v = "").
(** the file holds this JSON value *)
Definition json_file (files : string -> txt) (path : string) (j : json) : Prop := exists content, files path = Text content false /\ JsonSpec.json_doc content j.

(** ** packages.lock.json: frameworks, each with the packages and the resolved versions *)
Definition nuget_listed (m : list (string * list (string * string))) : list Pkg :=
  flat_map (fun framework => map (fun d => plain_pkg (fst d) (snd d) "NuGet") (snd framework)) m.
Definition nuget_package (resolved : string) (j : json) : Prop := exists w, opt_member "resolved" resolved w /\ obj ["resolved"] w j.
Definition nuget_doc (version : list (string * json)) (m : list (string * list (string * string))) (j : json) : Prop :=
  exists d, obj ["version"; "dependencies"] (version ++ [("dependencies", d)]) j /\ jmap (jmap nuget_package) m d.

(** ** Pipfile.lock: versions are pins, two bytes and the version *)
Definition pipenv_listed (m : list (string * string)) : list Pkg :=
  flat_map (fun d => match snd d with String _ (String _ v) => [plain_pkg (fst d) v "PyPI"] | _ => [] end) m.
(** a version of one byte *)
Definition short_pin (d : string * string) : Prop := exists c, snd d = String c "".
Definition pipenv_package (version : string) (j : json) : Prop := exists w, opt_member "version" version w /\ obj ["version"] w j.
Definition pipenv_doc (default develop : list (string * string)) (j : json) : Prop :=
  exists a b, obj ["default"; "develop"] [("default", a); ("develop", b)] j /\ jmap pipenv_package default a /\ jmap pipenv_package develop b.

(** ** bun.lock *)
Definition npm_name (name : string) : Prop :=
  name <> "" /\ (has_char "@" name = false \/ exists r, name = "@" +s+ r /\ has_char "@" r = false).
(** what follows name@ : where the package comes from *)
Inductive bun_source (spec : string) : string -> string -> Prop :=
| bs_version : has_char "#" spec = false -> (forall f, spec <> "file:" +s+ f) -> bun_source spec spec ""
| bs_file : forall f, spec = "file:" +s+ f -> has_char "#" f = false -> bun_source spec "" ""
| bs_commit : forall a c, spec = a +s+ "#" +s+ c -> has_char "#" a = false -> c <> "" -> bun_source spec "" c.
Inductive bun_entry : list json -> option Pkg -> Prop :=
| be_string : forall name spec v c rest, npm_name name -> bun_source spec v c ->
    bun_entry (JStr (name +s+ "@" +s+ spec) :: rest) (Some (mkPkg name v c "npm" "npm"))
| be_other : forall x rest, (forall s, x <> JStr s) -> bun_entry (x :: rest) None.

(** a number member that may be left out *)
Definition opt_number (k : string) (w : list (string * json)) : Prop :=
  w = [] \/ exists n, w = [(k, JNum (dec_of_nat n))] /\ (Z.of_nat n <= 9223372036854775807)%Z.
Definition bun_doc (m : list (string * list json)) (j : json) : Prop :=
  exists ver p, opt_number "lockfileversion" ver /\ obj ["lockfileversion"; "packages"] (ver ++ [("packages", p)]) j /\ jmap (fun t v => v = JArr t /\ Forall anything t) m p.

(** ** composer.lock *)
(** a reference is a commit unless it has a dot, which makes it a tag *)
Inductive composer_commit (ref : string) : string -> Prop :=
| cc_commit : has_char "." ref = false -> composer_commit ref ref
| cc_tag : has_char "." ref = true -> composer_commit ref "".
Inductive composer_entry : ComposerPackage -> Pkg -> Prop :=
| ce_intro : forall n v r c, composer_commit r c -> composer_entry (mkComposer n v r) (mkPkg n v c "Packagist" "Packagist").
Definition composer_package_doc (p : ComposerPackage) (j : json) : Prop :=
  (exists d w, obj ["name"; "version"; "dist"] [("name", JStr (cm_name p)); ("version", JStr (cm_version p)); ("dist", d)] j
               /\ opt_member "reference" (cm_ref p) w /\ obj ["reference"] w d)
  \/ (obj ["name"; "version"; "dist"] [("name", JStr (cm_name p)); ("version", JStr (cm_version p))] j /\ cm_ref p = "").
Definition composer_doc (a b : list ComposerPackage) (j : json) : Prop :=
  exists x y, obj ["packages"; "packages-dev"] [("packages", x); ("packages-dev", y)] j
              /\ jlist composer_package_doc a x /\ jlist composer_package_doc b y.

(** ** renv.lock *)
Inductive renv_entry : RenvPackage -> option Pkg -> Prop :=
| re_cran : forall n v, renv_entry (mkRenv n v "CRAN") (Some (plain_pkg n v "CRAN"))
| re_unset : forall n v, renv_entry (mkRenv n v "") (Some (plain_pkg n v "CRAN"))
| re_other : forall n v r, r <> "" -> r <> "CRAN" -> renv_entry (mkRenv n v r) None.
Definition renv_package_doc (p : RenvPackage) (j : json) : Prop :=
  exists w, opt_member "repository" (rv_repo p) w
            /\ obj ["package"; "version"; "repository"] ([("package", JStr (rv_package p)); ("version", JStr (rv_version p))] ++ w) j.
Definition renv_doc (m : list (string * RenvPackage)) (j : json) : Prop :=
  exists x, obj ["packages"] [("packages", x)] j /\ jmap renv_package_doc m x.

(** ** the TOML and YAML lockfiles, per decoded entry *)
Inductive cargo_entry : CargoPackage -> Pkg -> Prop := cae : forall n v, cargo_entry (mkCargo n v) (plain_pkg n v "crates.io").
Inductive pdm_entry : PdmPackage -> Pkg -> Prop := pde : forall n v r, pdm_entry (mkPdm n v r) (mkPkg n v r "PyPI" "PyPI").
Inductive poetry_entry : PoetryPackage -> Pkg -> Prop := poe : forall n v c, poetry_entry (mkPoetry n v c) (mkPkg n v c "PyPI" "PyPI").
Inductive pubspec_entry : string * PubPackage -> Pkg -> Prop :=
  pue : forall n v d, pubspec_entry (n, mkPub v d) (mkPkg n v (pb_ref d) "Pub" "Pub").
(** the project itself: no version, in the directory of the lockfile *)
Inductive pylock_entry : PylockPackage -> option Pkg -> Prop :=
| pye_root : forall n c, pylock_entry (mkPylock n "" c ".") None
| pye : forall n v c d, v <> "" \/ d <> "." -> pylock_entry (mkPylock n v c d) (Some (mkPkg n v c "PyPI" "PyPI")).
Inductive uv_entry : UvPackage -> option Pkg -> Prop :=
| uve_root : forall n v g, uv_entry (mkUv n v "." g) None
| uve_git : forall n v w a c, w <> "." -> has_char "#" a = false -> uv_entry (mkUv n v w (a +s+ "#" +s+ c)) (Some (mkPkg n v c "PyPI" "PyPI"))
| uve : forall n v w g, w <> "." -> has_char "#" g = false -> uv_entry (mkUv n v w g) (Some (plain_pkg n v "PyPI")).
(** an entry and what it makes *)
Inductive makes {A} (R : A -> option Pkg -> Prop) : list A -> list Pkg -> Prop :=
| mk_nil : makes R [] []
| mk_some : forall a p l ps, R a (Some p) -> makes R l ps -> makes R (a :: l) (p :: ps)
| mk_none : forall a l ps, R a None -> makes R l ps -> makes R (a :: l) ps.
