(** What a whole run says on os.Stderr besides its own errors, and where. *)
From Verif Require Import GoStr GoSort Types Osv OsvSpec MemDB Path Api ZipDB ZipSpec DirDB DirDBSpec DbConfig Configer Lockfile LockfileSpec Report Main MainSpec Warnings WarningsSpec FullRun FitSpec.

(** the run without the notices *)
Definition dids (o : list out) : list ev := flat_map (fun x => match x with Did e => [e] | Note _ => [] end) o.

Section Talk.
Variable E : Env.
Variable V : Voice.
Variable O : Opts.
Notation world := (e_world E).
Notation path_of c := (e_cache_path E (dc_url c)).

(** *** loading a database *)
(** before the request: a cache file that cannot be understood is complained of *)
Inductive first_words (c : DBConfig) : option string -> list string -> Prop :=
| fw_bad : forall content, dc_type c = "zip" -> ~ of_type cache_type content ->
    first_words c (Some content) ["Failed to parse cache from " +s+ path_of c +s+ ": " +s+ v_json_err V content +s+ newline]
| fw_good : forall content, dc_type c = "zip" -> of_type cache_type content -> first_words c (Some content) []
| fw_none : dc_type c = "zip" -> first_words c None []
| fw_other : forall file, dc_type c <> "zip" -> first_words c file [].
(** a cache that cannot be written is complained of *)
Inductive cache_words (c : DBConfig) : option string -> list string -> Prop :=
| cw_failed : forall content err, v_write_err V (path_of c) = Some err ->
    cache_words c (Some content) ["Failed to write cache to " +s+ path_of c +s+ ": " +s+ err +s+ newline]
| cw_written : forall content, v_write_err V (path_of c) = None -> cache_words c (Some content) []
| cw_none : cache_words c None [].
(** after it: each advisory file is in the database, or named *)
Inductive last_words (c : DBConfig) (names : list string) (file : option string) : res (load_err + DB) -> option string -> list string -> Prop :=
| lw_zip : forall n i date w wr body entries os ts, dc_type c = "zip" -> cache_words c w wr ->
    f_result (fetch_zip (dc_url c) (o_offline O) file (w_answer world)) = Ok (inr (body, date)) -> w_unzip world body = Some entries ->
    loaded_or_told (v_json_err V) (v_read_err V) (w_dec_osv world) (dc_wd c) entries os ts ->
    last_words c names file (Ok (inr (ZipD n i (load_all names os) date))) w (wr ++ ts)
| lw_zip_fails : forall r w wr, dc_type c = "zip" -> (forall d, r <> Ok (inr d)) -> cache_words c w wr -> last_words c names file r w wr
| lw_dir : forall n i u os ts, dc_type c = "dir" -> w_parse_uri world (dc_url c) = Some u ->
    let p := path_join [trim_prefix (u_path u) "/"; dc_wd c] in
    (forall o, In o os <-> exists q, advisory_at (w_dec_osv world) (path_base p) (w_tree world p) q o) ->
    (forall q t, In (q, t) ts <-> dir_notice (v_json_err V) (v_read_err V) (w_dec_osv world) (path_base p) (w_tree world p) q t) ->
    (sorted_node (w_tree world p) -> NoDup (map fst ts) /\ StronglySorted path_lt (map fst ts)) ->
    last_words c names file (Ok (inr (DirD n i (load_all names os)))) None (map snd ts ++ match ts with [] => [] | _ => [newline] end)
| lw_dir_fails : forall r, dc_type c = "dir" -> (forall d, r <> Ok (inr d)) ->
    last_words c names file r None (dir_load_says (v_json_err V) (v_read_err V) (w_dec_osv world) (w_parse_uri world) (w_tree world) (dc_url c) (dc_wd c))
| lw_other : forall r, dc_type c <> "zip" -> dc_type c <> "dir" -> last_words c names file r None [].
(** the caches after a load *)
Definition saved (f : files) (c : DBConfig) (w : option string) : files :=
  match w, v_write_err V (path_of c) with Some content, None => file_set f (path_of c) (Some content) | _, _ => f end.

(** *** checking a lockfile *)
Definition holding (d : DB) (os : list OSV) : Prop :=
  exists n i names, (exists date, d = ZipD n i (load_all names os) date) \/ d = DirD n i (load_all names os).
(** an advisory of the database has an entry for the package that says nothing *)
Definition blank (os : list OSV) (pkgs : list Pkg) (t : string) : Prop :=
  exists p o a, In p pkgs /\ In o os /\ o_withdrawn o = None /\ In a (o_affected o) /\ names a p /\ bare a /\ t = bare_notice (o_id o).

(** *** the run: the caches and the databases loaded, before and after *)
Definition given_file (p : string) : Prop := exists l e q, inputs E O l e /\ In q l /\ p = as_arg q.
Definition own_doing (e : ev) : Prop := (forall c, e <> ELoad c) /\ (forall q, e <> EZip q).
Inductive talk : files -> list DB -> list out -> files -> list DB -> Prop :=
| tk_end : forall f L, talk f L [] f L
| tk_did : forall f L e o g K, own_doing e -> talk f L o g K -> talk f L (Did e :: o) g K
| tk_parse : forall f L p a path parser o g K, given_file p -> split_parse_as p = (a, path) -> a <> "csv-row" -> a <> "csv-file" ->
    fst (find_parser path a) = Some parser -> talk f L o g K -> talk f L (map Note (v_parser V parser path) ++ o) g K
| tk_load : forall f L c names r w reqs said said' o g K,
    load_db world (f (path_of c)) c (o_offline O) (o_batch O) names = (r, w, reqs) ->
    first_words c (f (path_of c)) said -> last_words c names (f (path_of c)) r w said' ->
    talk (saved f c w) (L ++ match r with Ok (inr d) => [d] | _ => [] end) o g K ->
    talk f L (Did (ELoad c) :: map Note said ++ map (fun q => Did (EZip q)) reqs ++ map Note said' ++ o) g K
| tk_check : forall f L p l d os ts o g K, given_file p -> parse_lockfile E O p = Ok (l, None) ->
    In d L -> holding d os -> Forall (blank os (lf_pkgs l)) ts ->
    talk f L o g K -> talk f L (map Note ts ++ o) g K.
(** the databases loaded, each by its config *)
Definition from_load (d : DB) (o : list out) : Prop := exists c names file w reqs,
  In (Did (ELoad c)) o /\ load_db (world) file c (o_offline O) (o_batch O) names = (Ok (inr d), w, reqs).
(** what is said has one of three reasons *)
Inductive reason (L : list DB) (o : list out) (t : string) : Prop :=
| rs_parser : forall p a path parser, given_file p -> split_parse_as p = (a, path) -> fst (find_parser path a) = Some parser ->
    In t (v_parser V parser path) -> reason L o t
| rs_load : forall c names file r w reqs said said', In (Did (ELoad c)) o ->
    load_db (world) file c (o_offline O) (o_batch O) names = (r, w, reqs) ->
    first_words c file said -> last_words c names file r w said' -> In t (said ++ said') -> reason L o t
| rs_check : forall p l d os, given_file p -> parse_lockfile E O p = Ok (l, None) -> In d L -> holding d os ->
    blank os (lf_pkgs l) t -> reason L o t.
End Talk.
