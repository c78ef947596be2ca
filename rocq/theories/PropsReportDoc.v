(** C72: the document a run prints with --json *)
From Coq Require Import Permutation.
From Verif Require Import GoStr GoMap GoSort GoSortFacts Types Json JsonRound Osv OsvSpec MemDB MemDBSpec OsvJson OsvJsonSpec OsvJsonRound Path Api ZipDB ZipSpec DirDB DbConfig Configer
  Lockfile Report ReportDocSpec ReportDocProofs Main MainSpec EndSpec EndProofs ReportDocRun SemNum OsvExamples ConfigExamples MainExamples PropsMain PropsEnd PropsOsvJson.
From Verif Require JsonSpec JsonGrammar.

(** with --json a run that ends writes one text to stdout, a JSON document that
    says what the reports of its checks are, in their order *)
Theorem C72_document : forall E O rfc3339, SorterOk (e_sort E) -> IterOk (e_iter E) -> EntriesOk E ->
  faithful rfc3339 (e_osv_json E) -> settles rfc3339 -> w_dec_osv (e_world E) = dec_osv rfc3339 ->
  (forall k a pkgs rs, e_api E k a pkgs = Ok (inr rs) -> Forall (Forall (sound rfc3339)) rs) ->
  forall fs cache code s', o_json O = true -> checking O -> distinct_names E O fs -> run E O (start fs cache) = (Ok code, s') ->
  (forall ck, In ck (checks (s_trace s')) -> Forall utf8 (report_texts (ck_report ck))) ->
  exists text j, stdout (s_trace s') = [text] /\ JsonSpec.json_text text j /\ results_doc rfc3339 j (map ck_report (checks (s_trace s'))).
Proof.
  intros E O f S I N F T D A fs cache code s' J C DN R U. destruct (run_document E O f S I N F T D A fs cache code s' J C DN R U) as (t & j & X & P & Y).
  apply JsonGrammar.text_iff in P. eauto.
Qed.
(** such a document says one thing only *)
Theorem C72_one_reading : forall rfc3339 j rs rs', results_doc rfc3339 j rs -> results_doc rfc3339 j rs' -> map visible rs = map visible rs'.
Proof. exact results_fun. Qed.
(** the encoder writes advisories as documents that say what they are *)
Theorem C72_advisories : forall rfc3339 nil, nil_ok nil -> faithful rfc3339 (enc_osv nil).
Proof. exact encoder_faithful. Qed.
(** so different reports are printed differently *)
Theorem C72_tells_apart : forall rfc3339 osv_json rs rs', faithful rfc3339 osv_json -> Forall (sound_report rfc3339) rs -> Forall (sound_report rfc3339) rs' ->
  results_json osv_json (map RReport rs) = results_json osv_json (map RReport rs') -> map visible rs = map visible rs'.
Proof. exact results_apart. Qed.
(** but names that are not UTF-8 are not told apart *)
Theorem C72_bytes_refuted : exists r r', visible r <> visible r' /\ forall osv_json, results_json osv_json [RReport r] = results_json osv_json [RReport r'].
Proof.
  exists (mkRep (mkLF (String "255" "") "csv-row" []) []), (mkRep (mkLF (String "254" "") "csv-row" []) []).
  split; [discriminate|]. intros oj. vm_compute. reflexivity.
Qed.
Print Assumptions C72_document.
Print Assumptions C72_one_reading.
Print Assumptions C72_advisories.
Print Assumptions C72_tells_apart.
Print Assumptions C72_bytes_refuted.

(** ** a run: a yarn.lock with ab 1.0, the npm archive holding the advisory of C71 *)
Definition rd_world : World :=
  mkWorld ex_parse_uri (fun s => if seqb s "zip" then Some [("a.json", Some ex_text); ("b.json", Some "{")] else None) (dec_osv ex_time)
    (fun q => ZResp 200 "e" "today" (Some "zip")) ed_tree.
Definition rd_impl (f : ParserFn) (path : string) : PResult :=
  match f with ParseYarnLock => Ok ([mkPkg "ab" "1.0" "" "npm" "npm"; mkPkg "other" "2" "" "npm" "npm"], None) | _ => Ok ([], Some "unreadable") end.
Definition rd_env : Env := mkEnv rd_world num_sem isort (fun _ l => l) (fun _ s => s) (fun _ => "err")
  (enc_osv JNull) mx_stat rd_impl (fun _ => None) (fun u => u) yj_dec yj_enc (fun _ => true) (fun _ _ _ => Ok (inr [])) "v".
Definition rd_opts : Opts := mkOpts false "" "" false false false false false false false true true false 1000 [] ["e"].
Definition rd_run := run rd_env rd_opts (start (ed_files []) (fun _ => None)).
Definition rd_lock : Lockfile := mkLF "e/yarn.lock" "yarn.lock" [mkPkg "ab" "1.0" "" "npm" "npm"; mkPkg "other" "2" "" "npm" "npm"].
Definition rd_report : Report := mkRep rd_lock [mkPV (mkPkg "ab" "1.0" "" "npm" "npm") [ex_adv] []; mkPV (mkPkg "other" "2" "" "npm" "npm") [] []].
Lemma rd_inputs : inputs rd_env rd_opts [("", "e/yarn.lock")] false.
Proof.
  apply in_found; [discriminate|]. change [("", "e/yarn.lock")] with (map (fun p => ("", clean p)) ["e/yarn.lock"] ++ []).
  change false with (false || false). apply (fa_arg rd_env "" "e" [] "" "e"); [left; auto|reflexivity| |constructor].
  apply (fi_dir rd_env "e" "" [("yarn.lock", false)] [("yarn.lock", false)]); [reflexivity| | |repeat constructor].
  - apply sel_take; [|constructor]. split; [reflexivity|]. right. left. split; [reflexivity|]. apply ReportProofs.mem_iff. vm_compute. reflexivity.
  - apply Permutation_refl.
Qed.
Lemma rd_names : distinct_names rd_env rd_opts (ed_files []).
Proof.
  assert (M : mode_of rd_env rd_opts (ed_files []) Beside) by (apply mo_beside; reflexivity).
  assert (R : Forall2 (reads rd_env rd_opts (ed_files []) Beside) (map as_arg [("", "e/yarn.lock")]) [Usable rd_lock (ed_config [])]).
  { constructor; [|constructor]. apply rd_ok; [apply cf_beside with []; vm_compute; reflexivity|vm_compute; reflexivity]. }
  intros l c d U. destruct (uses_in _ _ _ _ _ _ _ _ _ _ rd_inputs M R U) as [[H|[]] A]. injection H as <- <-.
  assert (W : MainSpec.wanted rd_opts rd_lock (ed_config []) d) by (inversion A as [m l1 c1 d1 N W|m l1 c1 d1 l0 c0 S|m l1 c1 d1 us l0 c0 S]; [exact W| |]; discriminate S).
  destruct W as [[_ []]|[[N _]|[_ (p & P & _ & ->)]]]; [discriminate N|]. destruct P as [<-|[<-|[]]]; reflexivity.
Qed.
(** the hypotheses hold of it; the advisory is reported and read back *)
Example C72_case :
  SorterOk (e_sort rd_env) /\ IterOk (e_iter rd_env) /\ EntriesOk rd_env /\ faithful ex_time (e_osv_json rd_env) /\ settles ex_time
  /\ checking rd_opts /\ distinct_names rd_env rd_opts (ed_files []) /\ fst rd_run = Ok 1%Z
  /\ map ck_report (checks (s_trace (snd rd_run))) = [rd_report] /\ Forall utf8 (report_texts rd_report)
  /\ exists text j, stdout (s_trace (snd rd_run)) = [text] /\ JsonSpec.json_text text j /\ results_doc ex_time j [rd_report].
Proof.
  assert (H1 : fst rd_run = Ok 1%Z) by (vm_compute; reflexivity).
  assert (H2 : map ck_report (checks (s_trace (snd rd_run))) = [rd_report]) by (vm_compute; reflexivity).
  assert (H3 : Forall utf8 (report_texts rd_report)) by (repeat (constructor; [vm_compute; reflexivity|]); constructor).
  assert (C : checking rd_opts) by (repeat split).
  split; [exact isort_ok|]. split; [exact mx_iter|]. split; [exact mx_entries|]. split; [apply C72_advisories; now left|]. split; [exact ex_time_settles|].
  split; [exact C|]. split; [exact rd_names|]. split; [exact H1|]. split; [exact H2|]. split; [exact H3|]. rewrite <- H2.
  eapply (C72_document rd_env rd_opts ex_time isort_ok mx_iter mx_entries (C72_advisories _ _ (or_introl eq_refl)) ex_time_settles eq_refl).
  - intros k a pkgs rs H. injection H as <-. constructor.
  - reflexivity.
  - exact C.
  - exact rd_names.
  - rewrite <- H1. unfold rd_run. apply surjective_pairing.
  - intros ck I. apply (in_map ck_report) in I. rewrite H2 in I. destruct I as [<-|[]]. exact H3.
Qed.
Print Assumptions C72_case.
