(** Property theorems about lockfile parsing and CSV input (C40 to C44). *)
From Verif Require Import GoStr GoStrFacts GoSort GoSortFacts Types Path MemDB GoMap Lockfile Csv LockfileSpec CsvSpec LockfileProofs CsvProofs.

(** C40: the parser's packages reordered by name then version; its error kept *)
Theorem C40_sorted : forall S impl path parse_as lf e, SorterOk S ->
  parse S impl path parse_as = Ok (lf, e) ->
  (fst (find_parser path parse_as) = None /\ lf = empty_lockfile /\ e = Some (PNoParser path))
  \/ exists f ps err, fst (find_parser path parse_as) = Some f /\ impl f path = Ok (ps, err)
       /\ sorted_packages ps (lf_pkgs lf) /\ e = option_map PParser err
       /\ lf_path lf = path /\ lf_as lf = snd (find_parser path parse_as).
Proof. exact parse_sorted. Qed.
(** nothing but the parser itself can fail *)
Theorem C40_total : forall S impl path parse_as f ps err,
  fst (find_parser path parse_as) = Some f -> impl f path = Ok (ps, err) ->
  exists lf, parse S impl path parse_as = Ok (lf, option_map PParser err).
Proof. exact parse_complete. Qed.
Print Assumptions C40_sorted.
Print Assumptions C40_total.
Example C40_case : parse isort (fun f _ => match f with
    | ParseYarnLock => Ok ([mkPkg "b" "1" "" "npm" "npm"; mkPkg "a" "2" "" "npm" "npm"; mkPkg "a" "10" "" "npm" "npm"], Some "oops")
    | _ => Panic end) "x/yarn.lock" ""
  = Ok (mkLF "x/yarn.lock" "yarn.lock" [mkPkg "a" "10" "" "npm" "npm"; mkPkg "a" "2" "" "npm" "npm"; mkPkg "b" "1" "" "npm" "npm"], Some (PParser "oops")).
Proof. vm_compute. reflexivity. Qed.

(** C41: the distinct non-empty ecosystems, ascending *)
Theorem C41_listed : forall S it ps, SorterOk S -> IterOk it -> ecosystems_of ps (ecosystems S it ps).
Proof. exact ecosystems_spec. Qed.
(** whatever the order of the packages, of the map, and the sorting algorithm *)
Theorem C41_order_free : forall S it S' it' ps ps',
  SorterOk S -> IterOk it -> SorterOk S' -> IterOk it' ->
  Permutation ps ps' -> ecosystems S it ps = ecosystems S' it' ps'.
Proof. exact ecosystems_order_free. Qed.
Print Assumptions C41_listed.
Print Assumptions C41_order_free.
Example C41_case : ecosystems isort (fun _ l => rev l)
    [mkPkg "a" "" "" "npm" ""; mkPkg "b" "" "" "" ""; mkPkg "c" "" "" "Go" ""; mkPkg "d" "" "" "npm" ""] = ["Go"; "npm"]
  /\ IterOk (fun _ l => rev l).
Proof. split; [reflexivity|]. intros A l. apply Permutation_rev. Qed.

(** C42: the parser chosen *)
Theorem C42_chosen : forall path parse_as,
  let '(f, name) := find_parser path parse_as in
  (parse_as <> "" -> name = parse_as) /\ (parse_as = "" -> forall n, file_name path n -> name = n)
  /\ ((exists g, f = Some g) <-> In name supported).
Proof. exact find_parser_spec. Qed.
Theorem C42_listed : forall S it, SorterOk S -> IterOk it -> list_parsers S it = supported.
Proof. exact list_parsers_all. Qed.
Print Assumptions C42_chosen.
Print Assumptions C42_listed.
Example C42_case : find_parser "a/b/go.mod" "" = (Some ParseGoLock, "go.mod") /\ file_name "a/b/go.mod" "go.mod"
  /\ fst (find_parser "a/b/go.sum" "") = None /\ list_parsers isort (fun _ l => l) = supported.
Proof. repeat split; try reflexivity; try discriminate. right. now exists "a/b". Qed.

(** C43: CSV records *)
Theorem C43_package : forall r p, from_csv_record r = inr p <-> csv_package r p.
Proof. exact record_package. Qed.
Theorem C43_rejected : forall r e, from_csv_record r = inl e <-> bad_record r e.
Proof. exact record_bad. Qed.
Print Assumptions C43_package.
Print Assumptions C43_rejected.
Example C43_case : csv_package ["npm"; ""; "lib"; "1.0"; "more"] (mkPkg "lib" "1.0" "" "npm" "npm")
  /\ csv_package [""; ""; "lib"; "abc"] (mkPkg "lib" "" "abc" "" "") /\ bad_record [""; ""; "lib"; ""] MissingCommit.
Proof. repeat split; constructor; discriminate. Qed.

(** C44: a CSV text (lines ending with \n or \r\n) yields the packages of all
    its records, sorted, or the error of the first bad record *)
Theorem C44_text : forall S t input rs, SorterOk S -> has_char cr t = false -> input = t \/ input = crlf t -> csv_text t rs ->
  (exists ps ps', from_csv S input = (ps', None) /\ all_packages rs ps /\ sorted_packages ps ps')
  \/ (exists ps e, from_csv S input = (ps, Some e) /\ first_bad_row rs ps e).
Proof. exact from_csv_input. Qed.
(** what is no CSV text is never accepted *)
Theorem C44_malformed : forall S t input, has_char cr t = false -> input = t \/ input = crlf t ->
  ~ (exists rs, csv_text t rs) -> exists ps e, from_csv S input = (ps, Some e).
Proof. exact from_csv_bad_input. Qed.
(** rows without quotes are split at commas *)
Theorem C44_rows : forall S path parse_as rows, SorterOk S -> Forall simple_row rows ->
  let recs := map (split_char ",") (filter nonblank rows) in
  exists ps e, from_csv_rows S path parse_as rows = (mkLF path parse_as ps, e)
    /\ ((e = None /\ exists ps0, all_packages recs ps0 /\ sorted_packages ps0 ps)
        \/ exists x, e = Some x /\ first_bad_row recs ps x).
Proof. exact from_rows. Qed.
(** any table can be written: with every field quoted it is read back *)
Theorem C44_quoted : forall S rs, SorterOk S -> Forall (fun r => r <> []) rs -> has_char cr (write_csv rs) = false ->
  (exists ps ps', from_csv S (write_csv rs) = (ps', None) /\ all_packages rs ps /\ sorted_packages ps ps')
  \/ (exists ps e, from_csv S (write_csv rs) = (ps, Some e) /\ first_bad_row rs ps e).
Proof. exact csv_read_back. Qed.
Theorem C44_file : forall S path parse_as text,
  from_csv_file S (Some text) path parse_as
  = (mkLF path parse_as (fst (from_csv S text)), option_map (InFile path) (snd (from_csv S text))).
Proof. exact from_file. Qed.
Theorem C44_no_file : forall S path parse_as, from_csv_file S None path parse_as = (empty_lockfile, Some (CannotOpen path)).
Proof. exact open_failure. Qed.
Print Assumptions C44_text.
Print Assumptions C44_malformed.
Print Assumptions C44_rows.
Print Assumptions C44_quoted.
Print Assumptions C44_file.
Print Assumptions C44_no_file.
Example C44_case :
  from_csv isort (write_csv [["npm"; ""; "b,""x"; "1"]; ["Go"; ""; "a"; "2"]])
    = ([mkPkg "a" "2" "" "Go" "Go"; mkPkg "b,""x" "1" "" "npm" "npm"], None)
  /\ from_csv_rows isort "-" "csv-row" ["npm,,b,1"; ""; "Go,,,2"] = (mkLF "-" "csv-row" [mkPkg "b" "1" "" "npm" "npm"], Some (RowErr 2 MissingPackage))
  /\ simple_row "npm,,b,1".
Proof. repeat split; vm_compute; reflexivity. Qed.
(** rows of different lengths are refused even if each is fine on its own *)
Example C44_lengths : from_csv_rows isort "-" "csv-row" ["npm,,b,1"; "Go,,a,2,x"] = (mkLF "-" "csv-row" [mkPkg "b" "1" "" "npm" "npm"], Some (CsvErr FieldCount)).
Proof. reflexivity. Qed.
Example C44_malformed_case : ~ exists rs, csv_text "npm,,a""b,1" rs.
Proof.
  intros [rs T].
  destruct (from_csv_input isort "npm,,a""b,1" _ rs isort_ok eq_refl (or_introl eq_refl) T) as [[ps [ps' [H _]]]|[ps [e [H [g [r [rest [_ [_ [[_ K]|[_ [x [_ K]]]]]]]]]]]]];
    vm_compute in H; congruence.
Qed.
