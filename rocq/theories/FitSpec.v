(** Which JSON documents suit the Go types they are decoded into.  null suits
    every type, leaving the value as it is. *)
From Verif Require Import GoStr Json JsonSpec Base64Spec NumSpec.

Definition a_text (v : json) : Prop := v = JNull \/ exists s, v = JStr s.
(** an int *)
Definition an_int (v : json) : Prop := v = JNull \/ exists lit z, v = JNum lit /\ whole lit z /\ int64 z.
(** an any *)
Inductive anything : json -> Prop :=
| any_null : anything JNull
| any_bool : forall b, anything (JBool b)
| any_num : forall lit, number lit -> float64 lit -> anything (JNum lit)
| any_str : forall s, anything (JStr s)
| any_arr : forall l, (forall x, In x l -> anything x) -> anything (JArr l)
| any_obj : forall l, (forall k x, In (k, x) l -> anything x) -> anything (JObj l).
(** a slice, a map with strings as keys *)
Definition a_list_of (P : json -> Prop) (v : json) : Prop := v = JNull \/ exists l, v = JArr l /\ forall x, In x l -> P x.
Definition a_map_of (P : json -> Prop) (v : json) : Prop := v = JNull \/ exists l, v = JObj l /\ forall k x, In (k, x) l -> P x.
(** a struct: the fields it names, in lower case; every member with such a key,
    ignoring case, must suit; other members are ignored *)
Definition a_struct (fields : list (string * (json -> Prop))) (v : json) : Prop :=
  v = JNull \/ exists l, v = JObj l /\ forall k x P, In (k, x) l -> In (fold_key k, P) fields -> P x.

(** a text that is JSON, of a type *)
Definition of_type (T : json -> Prop) (content : string) : Prop := exists v, json_doc content v /\ T v.

(** ** lockfiles *)
(** package-lock.json, parse-npm-lock.go:12-30 *)
Inductive npm_dependency : json -> Prop :=
| nde_null : npm_dependency JNull
| nde_obj : forall l,
    (forall k x, In (k, x) l -> fold_key k = "version" -> a_text x) ->
    (forall k x, In (k, x) l -> fold_key k = "dependencies" -> x = JNull \/ exists m, x = JObj m /\ forall n d, In (n, d) m -> npm_dependency d) ->
    npm_dependency (JObj l).
Definition npm_package_type : json -> Prop :=
  a_struct [("name", a_text); ("version", a_text); ("resolved", a_text); ("dependencies", a_map_of a_text)].
Definition npm_type : json -> Prop :=
  a_struct [("lockfileversion", an_int); ("dependencies", a_map_of npm_dependency); ("packages", a_map_of npm_package_type)].
(** packages.lock.json, parse-nuget-lock.go:10-19 *)
Definition nuget_type : json -> Prop :=
  a_struct [("version", an_int); ("dependencies", a_map_of (a_map_of (a_struct [("resolved", a_text)])))].
(** Pipfile.lock, parse-pipenv-lock.go:9-16 *)
Definition pipenv_type : json -> Prop :=
  a_struct [("default", a_map_of (a_struct [("version", a_text)])); ("develop", a_map_of (a_struct [("version", a_text)]))].
(** bun.lock, parse-bun-lock.go:12-15 *)
Definition bun_type : json -> Prop := a_struct [("lockfileversion", an_int); ("packages", a_map_of (a_list_of anything))].
(** composer.lock, parse-composer-lock.go:10-21 *)
Definition composer_package_type : json -> Prop :=
  a_struct [("name", a_text); ("version", a_text); ("dist", a_struct [("reference", a_text)])].
Definition composer_type : json -> Prop :=
  a_struct [("packages", a_list_of composer_package_type); ("packages-dev", a_list_of composer_package_type)].
(** renv.lock, parse-renv-lock.go:9-17 *)
Definition renv_type : json -> Prop :=
  a_struct [("packages", a_map_of (a_struct [("package", a_text); ("version", a_text); ("repository", a_text)]))].

(** ** what databases read *)
(** the response to a batch, api-check.go:41-43, 110-116 *)
Definition batch_type : json -> Prop :=
  a_struct [("results", a_list_of (a_struct [("vulns", a_list_of (a_struct [("id", a_text)]))]))].
(** a cache file, zip.go:33-39; bytes are base64, or a list of numbers *)
Definition a_byte (v : json) : Prop := v = JNull \/ exists lit n, v = JNum lit /\ decimal lit n /\ (n <= 255)%Z.
Definition bytes_type (v : json) : Prop := (exists s b, v = JStr s /\ base64_read s b) \/ a_list_of a_byte v.
Definition cache_type : json -> Prop := a_struct [("url", a_text); ("etag", a_text); ("date", a_text); ("body", bytes_type)].
(** an advisory, osv.go:26-31, 60-69, 175-191 *)
Section Osv.
Variable rfc3339 : string -> option string.
Definition a_time (v : json) : Prop := v = JNull \/ exists s t, v = JStr s /\ rfc3339 s = Some t.
Definition osv_package_type : json -> Prop := a_struct [("name", a_text); ("ecosystem", a_text)].
Definition range_type : json -> Prop :=
  a_struct [("type", a_text); ("events", a_list_of (a_struct [("introduced", a_text); ("fixed", a_text); ("last_affected", a_text)]))].
Definition affected_type : json -> Prop :=
  a_struct [("package", osv_package_type); ("versions", a_list_of a_text); ("ranges", a_list_of range_type)].
Definition osv_type : json -> Prop :=
  a_struct [("id", a_text); ("aliases", a_list_of a_text); ("summary", a_text); ("published", a_time); ("modified", a_time);
            ("withdrawn", a_time); ("details", a_text); ("affected", a_list_of affected_type)].
End Osv.
