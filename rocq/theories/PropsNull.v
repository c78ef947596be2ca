(** C93: where the documents of --list-packages have null instead of a list. *)
From Verif Require Import GoStr GoStrFacts GoMap GoSort GoSortFacts Types Json JsonRound JsonSpec JsonGrammar OsvJsonSpec Osv MemDB Api DbConfig Configer Lockfile Csv Report ReportDocSpec Main MainSpec MainExamples ListDocSpec ListDocProofs RunProofs Nulls NullSpec NullProofs.

(** The document of a listing says what the lockfiles are; the packages of a
    lockfile are null exactly if there are none and it is a Gemfile.lock, a
    mix.lock, a Gradle lockfile or CSV. *)
Theorem C93_listing : forall E O, SorterOk (e_sort E) -> IterOk (e_iter E) -> EntriesOk E -> forall fs cache code s',
  o_json O = true -> listing O -> known_as (o_parse_as O) -> run_nil E O (start fs cache) = (Ok code, s') ->
  exists l e rs, inputs E O l e /\ listed_as E O l rs
    /\ (Forall (fun l => Forall utf8 (lock_texts l)) (given rs) ->
        exists text j, stdout (s_trace s') = [text] /\ json_text text j /\ exact_listing j (given rs)).
Proof. exact list_exact. Qed.
(** read as null or as an empty list, it means the same, and only one thing *)
Theorem C93_reads : forall j ls, exact_listing j ls -> listing_doc j ls /\ forall ls', listing_doc j ls' -> ls = ls'.
Proof. intros j ls H. apply exact_reads in H. split; [exact H|]. intros ls'. now apply listing_fun. Qed.
(** Nothing else differs from [run], and without --list-packages or without
    --json nothing at all: reports have lists only. *)
Theorem C93_same : forall E O s r s1 r' s2, o_json O = true -> run E O s = (r, s1) -> run_nil E O s = (r', s2) ->
  r = r' /\ s_files s1 = s_files s2 /\ s_cache s1 = s_cache s2
  /\ exists t rs, s_trace s1 = t ++ [EOut KDoc Stdout (results_json (e_osv_json E) rs)] /\ s_trace s2 = t ++ [EOut KDoc Stdout (results_json_nil (e_osv_json E) rs)].
Proof. exact nil_same. Qed.
Theorem C93_reports : forall E O fs cache, o_list_pkgs O = false \/ o_json O = false -> run_nil E O (start fs cache) = run E O (start fs cache).
Proof. exact nil_run. Qed.
Print Assumptions C93_listing.
Print Assumptions C93_reads.
Print Assumptions C93_same.
Print Assumptions C93_reports.

(** no rows of CSV, and a yarn.lock without packages *)
Definition nl_env : Env := mkEnv mx_world (e_sem mx_env) isort (fun _ l => l) (fun _ s => s) (fun _ => "err")
  (fun v => JObj [("id", JStr (o_id v))]) mx_stat (fun _ _ => Ok ([], None)) (fun _ => None) (fun u => u) (e_dec_yaml mx_env) (e_enc_yaml mx_env) (fun _ => true) mx_api "v".
Definition nl_opts (as_ : string) (args : list string) : Opts := mkOpts false as_ "" false false false false false false true true false false 1000 [] args.
Definition nl_run as_ args := run_nil nl_env (nl_opts as_ args) (start (fun _ => FNotExist) (fun _ => None)).
Example C93_case : fst (nl_run "csv-row" []) = Ok 0%Z /\ fst (nl_run "" ["e"]) = Ok 0%Z
  /\ stdout (s_trace (snd (nl_run "csv-row" []))) = ["{""results"":[{""filePath"":""-"",""parsedAs"":""csv-row"",""packages"":null}]}"]
  /\ stdout (s_trace (snd (nl_run "" ["e"]))) = ["{""results"":[{""filePath"":""e/yarn.lock"",""parsedAs"":""yarn.lock"",""packages"":[]}]}"]
  /\ listing (nl_opts "csv-row" []) /\ known_as "csv-row" /\ null_listed (mkLF "-" "csv-row" []) /\ ~ null_listed (mkLF "e/yarn.lock" "yarn.lock" []).
Proof.
  do 4 (split; [vm_compute; reflexivity|]). split; [now repeat split|]. split; [apply RunProofs.known_as_iff; vm_compute; reflexivity|]. split; [split; [reflexivity|cbn; auto 10]|].
  intros [_ H]. cbn in H. repeat (destruct H as [H|H]; [discriminate H|]). exact H.
Qed.
(** So not every lockfile of a document has a list of packages. *)
Theorem C93_array_refuted : exists E O fs cache s' text f, SorterOk (e_sort E) /\ IterOk (e_iter E) /\ run_nil E O (start fs cache) = (Ok 0%Z, s')
  /\ stdout (s_trace s') = [text] /\ json_text text (JObj [("results", JArr [JObj f])]) /\ In ("packages", JNull) f.
Proof.
  exists nl_env, (nl_opts "csv-row" []), (fun _ => FNotExist), (fun _ => None), (snd (nl_run "csv-row" [])), "{""results"":[{""filePath"":""-"",""parsedAs"":""csv-row"",""packages"":null}]}",
    [("filePath", JStr "-"); ("parsedAs", JStr "csv-row"); ("packages", JNull)].
  split; [exact isort_ok|]. split; [intros A l; reflexivity|]. split.
  { assert (H : fst (nl_run "csv-row" []) = Ok 0%Z) by (vm_compute; reflexivity). rewrite <- H. unfold nl_run. apply surjective_pairing. }
  split; [vm_compute; reflexivity|]. split; [apply text_iff; vm_compute; reflexivity|cbn; auto].
Qed.
Print Assumptions C93_array_refuted.
