(** Property theorems about the paths given: their order, and giving one more
    than once (C94). *)
From Verif Require Import GoStr GoStrFacts GoSort GoSortFacts GoMap Types Osv OsvSpec MemDB MemDBSpec Path Api ZipDB ZipSpec DirDB DirDBSpec DbConfig Configer Lockfile Csv Report ReportSpec Json Main MainSpec EndSpec EndProofs AmongSpec AmongProofs PathsProofs SemNum OsvExamples ConfigExamples MainExamples PropsAmong.

(** C94: a lockfile checked is checked too when more paths are given *)
Theorem C94_kept : forall E O fs cache, SorterOk (e_sort E) -> IterOk (e_iter E) -> EntriesOk E ->
  o_no_config O = false -> checking O -> o_parse_as O <> "csv-row" ->
  forall a b ca sa cb sb, incl a b -> (forall x, In x b -> has_prefix x "csv-row:" = false) ->
  run E (with_args O a) (start fs cache) = (Ok ca, sa) -> ca = 0%Z \/ ca = 1%Z ->
  run E (with_args O b) (start fs cache) = (Ok cb, sb) -> cb = 0%Z \/ cb = 1%Z ->
  forall ck, In ck (checks (s_trace sa)) -> exists ck', In ck' (checks (s_trace sb)) /\ rp_lock (ck_report ck') = rp_lock (ck_report ck).
Proof. exact paths_kept. Qed.
(** so, with nothing ignored, more paths do not hide a failure *)
Theorem C94_more : forall E O fs cache, SorterOk (e_sort E) -> IterOk (e_iter E) -> EntriesOk E ->
  o_no_config O = false -> checking O -> o_parse_as O <> "csv-row" -> steady E O cache ->
  forall a b ca sa cb sb, incl a b -> (forall x, In x b -> has_prefix x "csv-row:" = false) ->
  run E (with_args O a) (start fs cache) = (Ok ca, sa) -> ca = 0%Z \/ ca = 1%Z ->
  run E (with_args O b) (start fs cache) = (Ok cb, sb) -> cb = 0%Z \/ cb = 1%Z ->
  distinct_names E (with_args O b) fs -> comparable E (with_args O b) fs cache -> usual_ecosystems E (with_args O b) fs ->
  (forall ck, In ck (checks (s_trace sb)) -> ck_ignores ck = []) ->
  ca = 1%Z -> cb = 1%Z.
Proof. exact paths_grow. Qed.
(** and neither the order of the paths nor how often each is given matters *)
Theorem C94_order : forall E O fs cache, SorterOk (e_sort E) -> IterOk (e_iter E) -> EntriesOk E ->
  o_no_config O = false -> checking O -> o_parse_as O <> "csv-row" -> steady E O cache ->
  forall a b ca sa cb sb, (forall x, In x a <-> In x b) -> (forall x, In x b -> has_prefix x "csv-row:" = false) ->
  run E (with_args O a) (start fs cache) = (Ok ca, sa) -> ca = 0%Z \/ ca = 1%Z ->
  run E (with_args O b) (start fs cache) = (Ok cb, sb) -> cb = 0%Z \/ cb = 1%Z ->
  distinct_names E (with_args O b) fs -> comparable E (with_args O b) fs cache -> usual_ecosystems E (with_args O b) fs ->
  (forall ck, In ck (checks (s_trace sb)) -> ck_ignores ck = []) ->
  ca = cb.
Proof. exact paths_same. Qed.
Print Assumptions C94_kept.
Print Assumptions C94_more.
Print Assumptions C94_order.

(** the lockfiles of C77, in another order and one of them given twice *)
Definition pt_x := am_rb ++ am_ra.
Definition pt_y := am_ra ++ am_rb ++ am_ra.
Definition pt_locks (s : St) : list string := map (fun ck => lf_path (rp_lock (ck_report ck))) (checks (s_trace s)).
Lemma pt_all : am_files_of pt_x /\ am_files_of pt_y.
Proof. unfold am_files_of, pt_x, pt_y, am_ra, am_rb. cbn [app]. split; repeat (apply Forall_cons; auto). Qed.
Lemma pt_same : forall x, In x pt_x <-> In x pt_y.
Proof. intros x. cbn. tauto. Qed.
Example C94_case : (forall x, In x pt_x <-> In x pt_y) /\ pt_x <> pt_y
  /\ distinct_names am_env (with_args (am_opts [] []) pt_y) am_files
  /\ comparable am_env (with_args (am_opts [] []) pt_y) am_files (fun _ => None)
  /\ usual_ecosystems am_env (with_args (am_opts [] []) pt_y) am_files
  /\ steady am_env (am_opts [] []) (fun _ => None)
  /\ fst (am_run [] pt_x) = Ok 1%Z /\ fst (am_run [] pt_y) = Ok 1%Z /\ fst (am_run [] am_rb) = Ok 0%Z
  /\ pt_locks (snd (am_run [] pt_x)) = ["b/yarn.lock"; "a/yarn.lock"]
  /\ pt_locks (snd (am_run [] pt_y)) = ["a/yarn.lock"; "b/yarn.lock"; "a/yarn.lock"].
Proof.
  destruct pt_all as [_ F]. split; [exact pt_same|]. split; [discriminate|]. split; [now apply am_distinct|]. split; [now apply am_comparable|]. split; [now apply am_usual|]. split; [apply am_steady|].
  repeat split; vm_compute; reflexivity.
Qed.
(** with GHSA-1 ignored, the order of the paths decides whether the run fails *)
Theorem C94_ignores_refuted : exists E O fs cache a b sa sb,
  SorterOk (e_sort E) /\ IterOk (e_iter E) /\ EntriesOk E /\ steady E O cache /\ o_no_config O = false /\ checking O
  /\ distinct_names E (with_args O b) fs /\ comparable E (with_args O b) fs cache /\ usual_ecosystems E (with_args O b) fs
  /\ Permutation.Permutation a b
  /\ run E (with_args O a) (start fs cache) = (Ok 0%Z, sa) /\ run E (with_args O b) (start fs cache) = (Ok 1%Z, sb).
Proof.
  exists am_env, (am_opts ["GHSA-1"] []), am_files, (fun _ => None), (am_ra ++ am_rb), (am_rb ++ am_ra),
    (snd (am_run ["GHSA-1"] (am_ra ++ am_rb))), (snd (am_run ["GHSA-1"] (am_rb ++ am_ra))).
  destruct am_all as (_ & _ & F).
  split; [exact isort_ok|]. split; [exact am_iter|]. split; [exact am_entries|]. split; [apply am_steady|]. split; [reflexivity|]. split; [repeat split|].
  split; [now apply am_distinct|]. split; [now apply am_comparable|]. split; [now apply am_usual|]. split; [apply Permutation.Permutation_app_comm|].
  assert (X : forall ig args code, fst (am_run ig args) = Ok code ->
    run am_env (with_args (am_opts ig []) args) (start am_files (fun _ => None)) = (Ok code, snd (am_run ig args))).
  { intros ig args code H. rewrite <- H. unfold am_run. apply surjective_pairing. }
  split; apply X; vm_compute; reflexivity.
Qed.
Print Assumptions C94_ignores_refuted.
