(** Specification of everything a run writes and does, in order: the grammar of
    its trace. *)
From Verif Require Import GoStr Types Osv MemDB Path Api ZipDB DirDB DbConfig Configer Lockfile LockfileSpec Ecosystems Report ReportSpec Main MainSpec.

(** a number in decimal, as people write it *)
Fixpoint value (acc : nat) (s : string) : nat :=
  match s with EmptyString => acc | String c r => value (acc * 10 + (nat_of_ascii c - nat_of_ascii "0")) r end.
Fixpoint all_digits (s : string) : Prop :=
  match s with EmptyString => True | String c r => nat_of_ascii "0" <= nat_of_ascii c <= nat_of_ascii "9" /\ all_digits r end.
Record decimal (n : nat) (s : string) : Prop := mkDecimal {
  de_digits : all_digits s; de_value : value 0 s = n; de_some : s <> ""; de_no_zeros : forall r, s = String "0" r -> s = "0" }.

(** the line of a package in a listing *)
Inductive listed_line (p : Pkg) : string -> Prop :=
| ll_intro : forall eco version commit,
    (p_eco p = "" -> eco = "<unknown>") -> (p_eco p <> "" -> eco = p_eco p) ->
    (p_version p = "" -> version = "") -> (p_version p <> "" -> version = "@" +s+ p_version p) ->
    (p_commit p = "" -> commit = "") -> (p_commit p <> "" -> commit = " (" +s+ p_commit p +s+ ")") ->
    listed_line p ("  " +s+ eco +s+ ": " +s+ p_name p +s+ version +s+ commit).
Definition plain_pkg (p : Pkg) : Prop := one_line (p_eco p) /\ one_line (p_name p) /\ one_line (p_version p) /\ one_line (p_commit p).

Section Story.
Variable E : Env.
Variable O : Opts.
Notation col := (e_col E).
Definition says (t : string) : ev := EOut KText (if o_json O then Stderr else Stdout) t.
Definition complains (t : string) : ev := EOut KErr Stderr t.

(** ** what is said *)
Definition one_or (n : nat) (one many : string) : string := match n with 1 => one | _ => many end.
Definition heading (l : Lockfile) : string :=
  let n := List.length (lf_pkgs l) in
  col "magenta" (lf_path l) +s+ ": found " +s+ col "yellow" (dec_of_nat n) +s+ " " +s+ one_or n "package" "packages" +s+ newline.
Definition config_note (path : string) (n : nat) : string :=
  "  Using config at " +s+ col "magenta" path +s+ " ("
  +s+ (if o_no_ignores O then "skipping any ignores" else col "yellow" (dec_of_nat n +s+ " " +s+ one_or n "ignore" "ignores"))
  +s+ ")" +s+ newline.
Definition size_note (db : memDB) : string :=
  col "yellow" (dec_of_nat (m_count db)) +s+ " " +s+ one_or (m_count db) "vulnerability" "vulnerabilities" +s+ ", including withdrawn".
Definition about (d : DB) : string :=
  match d with
  | ApiD a => " (using batches of " +s+ col "yellow" (dec_of_Z (api_batch a)) +s+ ")"
  | ZipD _ _ db date => " (" +s+ size_note db +s+ " - last updated " +s+ date +s+ ")"
  | DirD _ _ db => " (" +s+ size_note db +s+ ")"
  end.
Definition use_note (d : DB) : string := "  Using db " +s+ col "hicyan" (db_name d) +s+ about d +s+ newline.
Definition load_note (e : load_err) : string :=
  " " +s+ col "red" ("failed: " +s+ match e with
    | LZip ZOfflineNotFound | LApi ErrOffline => col "red" "no local version of the database was found, and --offline flag was set"
    | _ => e_text E (ALoad e) end) +s+ newline.
Definition file_error (e : any_err) : string := "Error, " +s+ e_text E e +s+ newline.

(** ** the parts of a run *)
(** while the paths and the configs are read *)
Inductive early : ev -> Prop :=
| ea_config : forall p, early (EReadConfig p)
| ea_path : forall p, early (complains ("Error reading " +s+ p +s+ ": " +s+ e_text E (AOpen p) +s+ newline))
| ea_db : forall p e, early (complains (p +s+ " contains an invalid database: " +s+ e_text E (ADbConfig p e) +s+ newline)).

(** the databases are loaded one by one *)
Inductive loading : list ev -> list DB -> Prop :=
| lo_none : loading [] []
| lo_db : forall c reqs d tr ds, db_ident d = identifier c -> loading tr ds ->
    loading (says ("  " +s+ dc_name c) :: ELoad c :: map EZip reqs ++ says (about d +s+ newline) :: tr) (d :: ds)
| lo_failed : forall c reqs e tr ds, loading tr ds ->
    loading (says ("  " +s+ dc_name c) :: ELoad c :: map EZip reqs ++ ELoadFailed c e :: complains (load_note e) :: tr) ds.

(** the API is asked about all packages of the lockfile, or a complaint is made
    about it *)
Inductive asking (l : Lockfile) : ev -> Prop :=
| ak_asks : forall a, asking l (EApi a (lf_pkgs l))
| ak_fails : forall e, asking l (complains (col "red" ("  an api error occurred while trying to check the packages listed in "
    +s+ lf_path l +s+ ": " +s+ e_text E (AApi e) +s+ newline))).

(** one lockfile: an error, its listing, or its check *)
Definition shows (r : Result) : list ev := if o_json O then [] else [EOut KRes Stdout (result_string (e_col E) r)].
Inductive account (ds : list DB) : list ev -> Prop :=
| ac_error : forall e, account ds [complains (file_error e)]
| ac_listed : forall l, o_list_pkgs O = true -> account ds (says (heading l) :: shows (RLock l))
| ac_checked : forall cfg used ign raw l rows asked, o_list_pkgs O = false ->
    Forall (fun d => In d ds) used -> Forall (asking l) asked ->
    account ds (says (heading l)
      :: (if seqb cfg "" then [] else [says (config_note cfg (List.length ign - List.length (o_ignores O)))])
      ++ map (fun d => says (use_note d)) used
      ++ says newline
      :: asked
      ++ ECheck cfg (map db_ident used) ign raw (mkRep l rows)
      :: shows (RReport (mkRep l rows))).
(** the lockfiles in turn, with an empty line between them *)
Inductive accounts (ds : list DB) : list ev -> Prop :=
| at_last : forall a, account ds a -> accounts ds a
| at_more : forall a tr, account ds a -> accounts ds tr -> accounts ds (a ++ says newline :: tr).

(** the configs are updated: each is read and, if that can be done, written; then
    a line is printed for each *)
Inductive updates : string * list string -> list ev -> string -> Prop :=
| up_written : forall p ids content,
    updates (p, ids) [EReadConfig (clean p); EWriteConfig p content]
      ("Updated " +s+ col "magenta" p +s+ " with " +s+ dec_of_nat (List.length ids) +s+ " "
       +s+ one_or (List.length ids) "vulnerability" "vulnerabilities" +s+ newline)
| up_failed : forall p ids e, updates (p, ids) [EReadConfig (clean p)] ("Error updating config: " +s+ e_text E (AUpdate e)).
Definition update_line (t : string) : ev := if has_prefix t "Error updating" then complains t else says t.
Inductive updating (cks : list checked) : list ev -> Prop :=
| ud_intro : forall entries done out,
    NoDup (map fst entries) ->
    (forall p, In p (map fst entries) <-> p <> "" /\ exists ck, In ck cks /\ ck_cfg ck = p) ->
    (forall p ids, In (p, ids) entries -> NoDup ids
      /\ forall i, In i ids <-> exists ck, In ck cks /\ ck_cfg ck = p /\ In i (seen_ids (ck_report ck))) ->
    Forall2 (fun en sl => updates en (fst sl) (snd sl)) entries done ->
    Permutation (map snd done) out -> StronglySorted (fun a b => a = b \/ str_lt a b) out ->
    updating cks ((match entries with [] => [] | _ => [says newline] end) ++ concat (map fst done) ++ map update_line out).

(** ** the whole *)
Inductive story : list ev -> Prop :=
| sr_version : o_version O = true -> story [says (e_version_line E)]
| sr_ecosystems : o_version O = false -> o_list_eco O = true ->
    story (says ("The detector supports parsing for the following ecosystems:" +s+ newline)
           :: map (fun e => says ("  " +s+ e +s+ newline)) known_ecosystems)
| sr_parser : o_version O = false -> o_list_eco O = false -> ~ known_as (o_parse_as O) ->
    story (complains ("Don't know how to parse files as """ +s+ o_parse_as O +s+ """ - supported values are:" +s+ newline)
           :: map (fun a => complains ("  " +s+ a +s+ newline)) (supported ++ ["csv-file"; "csv-row"]))
| sr_nothing : forall pre, o_version O = false -> o_list_eco O = false -> Forall early pre ->
    story (pre ++ [complains ("You must provide at least one path to either a lockfile or a directory containing at least one lockfile (see --help for usage and flags)" +s+ newline)])
| sr_config : forall pre e, checking O -> Forall early pre -> story (pre ++ [complains (file_error (AConfig e))])
| sr_listed : forall pre tr, listing O -> Forall early pre -> accounts [] tr -> story (pre ++ tr)
| sr_checked : forall pre ltr ds tr utr, checking O -> Forall early pre -> loading ltr ds -> accounts ds tr ->
    (o_update O = false -> utr = []) -> (o_update O = true -> updating (checks tr) utr) ->
    story (pre ++ says ("Loaded the following OSV databases:" +s+ newline) :: ltr ++ says newline :: tr ++ utr).
(** with --json the document comes last *)
Definition whole_story (tr : list ev) : Prop :=
  exists body, story body /\ ((o_json O = false /\ tr = body) \/ (o_json O = true /\ exists doc, tr = body ++ [EOut KDoc Stdout doc])).
End Story.
