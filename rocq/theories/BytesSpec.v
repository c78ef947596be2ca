(** From the bytes of lockfiles and advisories (C85). *)
From Coq Require Import QArith.
From Verif Require Import GoStr Types Json JsonSpec Osv OsvSpec MemDB MemDBSpec Path Scan GoMap LockIO Commit CommitSpec LockSpec YarnSpec ListLocks Api Lockfile Parsers ZipDB DirDB DirDBSpec DbConfig Configer OsvJson OsvJsonSpec Main MainSpec EndSpec FormatSpec.
Local Open Scope string_scope.

(** lockfiles are read by the parsers of Parsers.v from these files, advisories
    by the decoder of OsvJson.v; of others, [D] and [rfc3339] *)
Definition reads_bytes (E : Env) (D : Decoders) (files : string -> txt) (rfc3339 : string -> option string) : Prop :=
  (exists depth text, e_impl E = impl D (e_iter E) files depth text) /\ w_dec_osv (e_world E) = dec_osv rfc3339.

(** ** what the bytes of a lockfile list *)
Definition bytes_list (D : Decoders) (files : string -> txt) (l : Lockfile) (p : Pkg) : Prop := format_lists D files (lf_path l) (lf_as l) p.
Definition bytes_clear (D : Decoders) (files : string -> txt) (l : Lockfile) : Prop := format_clear D files (lf_path l) (lf_as l).

(** ** what the bytes of a database say *)
(** a file of a directory, or of every archive that may be served, is a text in
    the grammar of JSON for a document that says [o] *)
Definition advisory_text (rfc3339 : string -> option string) (content : string) (o : OSV) : Prop := exists j, json_doc content j /\ osv_doc rfc3339 j o.
Inductive bytes_hold (E : Env) (O : Opts) (cache : files) (rfc3339 : string -> option string) (d : DBConfig) (o : OSV) : Prop :=
| bh_dir : forall u q content, dc_type d = "dir" -> w_parse_uri (e_world E) (dc_url d) = Some u ->
    (let p := path_join [trim_prefix (u_path u) "/"; dc_wd d] in
     at_path (w_tree (e_world E) p) q (NFile (Some content)) /\ exists stem, last q (path_base p) = stem +s+ ".json") ->
    advisory_text rfc3339 content o -> bytes_hold E O cache rfc3339 d o
| bh_zip : dc_type d = "zip" ->
    (forall entries, archive E O cache d entries -> exists name content rest stem, In (name, Some content) entries
       /\ name = dc_wd d +s+ rest /\ name = stem +s+ ".json" /\ advisory_text rfc3339 content o) -> bytes_hold E O cache rfc3339 d o.
(** the other way: an advisory comes from such a file, which says it unless keys
    are repeated in it *)
Definition read_from (rfc3339 : string -> option string) (content : string) (o : OSV) : Prop := exists j, json_doc content j /\ (no_repeats j -> osv_doc rfc3339 j o).
Inductive bytes_gave (E : Env) (O : Opts) (cache : files) (rfc3339 : string -> option string) (d : DBConfig) (o : OSV) : Prop :=
| bg_dir : forall u q content, dc_type d = "dir" -> w_parse_uri (e_world E) (dc_url d) = Some u ->
    (let p := path_join [trim_prefix (u_path u) "/"; dc_wd d] in
     at_path (w_tree (e_world E) p) q (NFile (Some content)) /\ exists stem, last q (path_base p) = stem +s+ ".json") ->
    read_from rfc3339 content o -> bytes_gave E O cache rfc3339 d o
| bg_zip : forall entries name content rest stem, dc_type d = "zip" -> archive E O cache d entries -> In (name, Some content) entries ->
    name = dc_wd d +s+ rest -> name = stem +s+ ".json" -> read_from rfc3339 content o -> bytes_gave E O cache rfc3339 d o.
