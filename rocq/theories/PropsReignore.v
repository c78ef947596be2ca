(** C88: what changes when only the ignores of configs do, and what running with
    --update-config-ignores a second time does. *)
From Coq Require Import Lia.
From Verif Require Import GoStr GoStrFacts GoSort GoSortFacts Types Osv MemDB Path Api ZipDB DirDB DbConfig Configer GoMap Lockfile Csv Report Json Main.
From Verif Require Import OsvSpec MemDBSpec ReportSpec MainSpec QuietSpec MainExamples ReignoreSpec ReignoreProofs ReignoreRunProofs.

(** changing the ignores of configs: the run is the same but for how what is
    found is divided *)
Theorem C88_same : forall E O fs fs' cache r s r' s', SorterOk (e_sort E) -> IterOk (e_iter E) -> reignored (e_dec_yaml E) any_ids fs fs' ->
  run E O (start fs cache) = (r, s) -> run E O (start fs' cache) = (r', s') ->
  twin_run O any_ids fs fs' s s' /\ (r = Panic <-> r' = Panic).
Proof. exact (fun E O fs fs' cache r s r' s' SO IT RE => twin_runs E O SO IT any_ids fs fs' cache cache r s r' s' RE (fun _ => eq_refl)). Qed.
(** configs that ignore more: the exit code is the same, or goes from 1 to what
    it would be without a finding *)
Theorem C88_exit : forall E O fs fs' cache c s c' s', SorterOk (e_sort E) -> IterOk (e_iter E) -> reignored (e_dec_yaml E) (@incl string) fs fs' ->
  run E O (start fs cache) = (Ok c, s) -> run E O (start fs' cache) = (Ok c', s') ->
  c = c' \/ c = 1%Z /\ (messages KErr (s_trace s) = [] /\ c' = 0%Z \/ messages KErr (s_trace s) <> [] /\ c' = 127%Z).
Proof. exact (fun E O fs fs' cache c s c' s' SO IT RE => twin_codes E O SO IT fs fs' cache cache c s c' s' RE (fun _ => eq_refl)). Qed.
(** configs that ignore more: per package, fewer advisories are found, more are
    ignored, and none appears or disappears *)
Theorem C88_rows : forall E O fs fs' cache r s r' s', SorterOk (e_sort E) -> IterOk (e_iter E) -> reignored (e_dec_yaml E) (@incl string) fs fs' ->
  run E O (start fs cache) = (r, s) -> run E O (start fs' cache) = (r', s') ->
  Forall2 (fun ck ck' => incl (ck_ignores ck) (ck_ignores ck')
    /\ Forall2 (quieter_row (ck_ignores ck) (ck_ignores ck')) (rp_pkgs (ck_report ck)) (rp_pkgs (ck_report ck'))) (checks (s_trace s)) (checks (s_trace s')).
Proof. exact (fun E O fs fs' cache r s r' s' SO IT RE => twin_rows E O SO IT fs fs' cache cache r s r' s' RE (fun _ => eq_refl)). Qed.
(** a second run (in which servers and caches answer as in the first) finds the
    same, and changes no file that the first run left *)
Theorem C88_twice : forall E O fs cache cache' r s r' s', SorterOk (e_sort E) -> IterOk (e_iter E) -> EntriesOk E ->
  run E O (start fs cache) = (r, s) -> read_back E (s_trace s) -> (forall p, cache p = cache' p) ->
  run E O (start (s_files s) cache') = (r', s') ->
  twin_run O any_ids fs (s_files s) s s' /\ (r = Panic <-> r' = Panic) /\ forall p, s_files s' p = s_files s p.
Proof. exact (fun E O fs cache cache' r s r' s' SO IT EO => twice E O SO IT EO fs cache cache' r s r' s'). Qed.
(** what is still found then was found for a lockfile without a config, or with
    one that could not be written *)
Theorem C88_clean : forall E O fs cache cache' c s c' s', SorterOk (e_sort E) -> IterOk (e_iter E) -> EntriesOk E ->
  checking O -> o_update O = true -> o_no_ignores O = false ->
  run E O (start fs cache) = (Ok c, s) -> read_back E (s_trace s) -> (forall p, cache p = cache' p) ->
  run E O (start (s_files s) cache') = (Ok c', s') ->
  forall ck, In ck (checks (s_trace s')) -> flawed ck -> ck_cfg ck = "" \/ e_openable E (ck_cfg ck) = false.
Proof. exact (fun E O fs cache cache' c s c' s' SO IT EO => twice_clean E O SO IT EO fs cache cache' c s c' s'). Qed.
(** so if there are only others, the second run succeeds unless it reports an
    error *)
Theorem C88_again : forall E O fs cache cache' c s c' s', SorterOk (e_sort E) -> IterOk (e_iter E) -> EntriesOk E ->
  checking O -> o_update O = true -> o_no_ignores O = false ->
  run E O (start fs cache) = (Ok c, s) -> read_back E (s_trace s) -> (forall p, cache p = cache' p) ->
  run E O (start (s_files s) cache') = (Ok c', s') ->
  (forall ck, In ck (checks (s_trace s)) -> ck_cfg ck <> "" /\ e_openable E (ck_cfg ck) = true) ->
  (c' = 0%Z <-> messages KErr (s_trace s') = []).
Proof. exact (fun E O fs cache cache' c s c' s' SO IT EO => twice_exit E O SO IT EO fs cache cache' c s c' s'). Qed.
Print Assumptions C88_same.
Print Assumptions C88_exit.
Print Assumptions C88_rows.
Print Assumptions C88_twice.
Print Assumptions C88_clean.
Print Assumptions C88_again.

(** an encoding of configs that can be read back, whatever they say *)
Fixpoint rg_str (s k : string) : string := match s with "" => String "." k | String c s' => String "x" (String c (rg_str s' k)) end.
Fixpoint rg_strs (l : list string) (k : string) : string := match l with [] => String ";" k | s :: l' => String "-" (rg_str s (rg_strs l' k)) end.
Fixpoint rg_un (s : string) : option (string * string) :=
  match s with
  | String "." k => Some ("", k)
  | String "x" (String c s') => match rg_un s' with Some (a, k) => Some (String c a, k) | None => None end
  | _ => None
  end.
Fixpoint rg_uns (n : nat) (s : string) : option (list string * string) :=
  match n, s with
  | S n', String "-" s' => match rg_un s' with Some (a, k) => match rg_uns n' k with Some (l, k') => Some (a :: l, k') | None => None end | None => None end
  | _, String ";" k => Some ([], k)
  | _, _ => None
  end.
Fixpoint rg_dbs (l : list string) : list raw_db := match l with a :: b :: c :: d :: l' => mkRD a b c d :: rg_dbs l' | _ => [] end.
Definition rg_enc (c : raw_config) : string := rg_strs (rc_ignore c) (rg_strs (flat_map (fun d => [rd_url d; rd_name d; rd_type d; rd_wd d]) (rc_dbs c)) "").
Definition rg_dec (s : string) : option raw_config :=
  match rg_uns (String.length s) s with
  | Some (i, k) => match rg_uns (String.length k) k with Some (d, _) => Some (mkRC i (rg_dbs d)) | None => None end
  | None => None
  end.
Lemma rg_un_ok s k : rg_un (rg_str s k) = Some (s, k).
Proof. induction s as [|c s IH]; cbn; [reflexivity|]. now rewrite IH. Qed.
Lemma rg_uns_ok l k : forall n, List.length l <= n -> rg_uns n (rg_strs l k) = Some (l, k).
Proof. induction l as [|s l IH]; intros n L; [now destruct n|]. destruct n as [|n]; [cbn in L; lia|]. cbn in *. rewrite rg_un_ok, IH by lia. reflexivity. Qed.
Lemma rg_len l k : List.length l <= String.length (rg_strs l k).
Proof.
  induction l as [|s l IH]; cbn; [lia|]. assert (G : forall q, String.length q <= String.length (rg_str s q)) by (intros q; induction s; cbn; lia).
  specialize (G (rg_strs l k)). lia.
Qed.
Lemma rg_ok rc : rg_dec (rg_enc rc) = Some rc.
Proof.
  unfold rg_dec, rg_enc. rewrite rg_uns_ok by apply rg_len. rewrite rg_uns_ok by apply rg_len. destruct rc as [i d]. cbn [rc_ignore rc_dbs]. do 2 f_equal.
  induction d as [|[a b c e] d IH]; cbn; [reflexivity|]. now rewrite IH.
Qed.

Definition rg_env : Env := mkEnv mx_world (e_sem mx_env) isort (fun _ l => l) (fun _ s => s) (fun _ => "err")
  (e_osv_json mx_env) mx_stat mx_impl (fun _ => None) (fun u => u) rg_dec rg_enc (fun _ => true) mx_api "v".
Definition rg_files (ids : list string) (p : string) : fread := if seqb p "d/.osv-detector.yml" then FOk (rg_enc (mkRC ids (rc_dbs mx_conf))) else FNotExist.
Definition rg_opts (no api : bool) (args : list string) : Opts := mkOpts false "" "" false true no false false false false false false api 1000 [] args.
Definition rg_run (O : Opts) (fs : string -> fread) := run rg_env O (start fs (fun _ => None)).
Lemma rg_pair O fs : run rg_env O (start fs (fun _ => None)) = (fst (rg_run O fs), snd (rg_run O fs)).
Proof. unfold rg_run. apply surjective_pairing. Qed.
Lemma rg_ends O fs c : fst (rg_run O fs) = Ok c -> run rg_env O (start fs (fun _ => None)) = (Ok c, snd (rg_run O fs)).
Proof. intros <-. apply rg_pair. Qed.
Lemma rg_iter : IterOk (e_iter rg_env). Proof. intros A l. reflexivity. Qed.
Lemma rg_sort : SorterOk (e_sort rg_env). Proof. exact isort_ok. Qed.
Lemma rg_back tr : read_back rg_env tr.
Proof. intros p rc _. apply rg_ok. Qed.
Lemma rg_entries : EntriesOk rg_env. Proof. exact mx_entries. Qed.
Lemma rg_re ids ids' (I : list string -> list string -> Prop) : I ids ids' -> reignored rg_dec I (rg_files ids) (rg_files ids').
Proof.
  intros H p. unfold rg_files. destruct (seqb p _); [right|now left]. eexists _, _, ids, ids', (rc_dbs mx_conf). repeat split; auto; apply rg_ok.
Qed.
Definition rg_rows (O : Opts) (fs : string -> fread) := map (fun k => map (fun r => (map o_id (pv_vulns r), map o_id (pv_ignored r))) (rp_pkgs (ck_report k))) (checks (s_trace (snd (rg_run O fs)))).
(** a config that ignores A, then both A and B, which were found *)
Example C88_case : let O := rg_opts false false ["d/go.mod"] in let f1 := rg_files ["A"] in let f2 := s_files (snd (rg_run O f1)) in
  SorterOk (e_sort rg_env) /\ IterOk (e_iter rg_env) /\ EntriesOk rg_env /\ checking O
  /\ reignored (e_dec_yaml rg_env) any_ids f1 f2 /\ reignored (e_dec_yaml rg_env) (@incl string) (rg_files ["A"]) (rg_files ["B"; "A"])
  /\ fst (rg_run O f1) = Ok 1%Z /\ fst (rg_run O f2) = Ok 0%Z /\ fst (rg_run O (rg_files ["B"; "A"])) = Ok 0%Z
  /\ f2 "d/.osv-detector.yml" = FOk (rg_enc (mkRC ["A"; "B"] (rc_dbs mx_conf)))
  /\ rg_rows O f1 = [[(["B"], ["A"]); ([], [])]] /\ rg_rows O f2 = [[([], ["A"; "B"]); ([], [])]]
  /\ forall p, s_files (snd (rg_run O f2)) p = f2 p.
Proof.
  cbv zeta. split; [exact rg_sort|]. split; [exact rg_iter|]. split; [exact rg_entries|]. split; [repeat split|].
  split; [exact (rewritten rg_env _ rg_sort rg_iter rg_entries (rg_files ["A"]) (fun _ => None) _ _ (rg_pair _ _) (rg_back _))|].
  split; [apply rg_re; intros x [<-|[]]; right; now left|]. do 6 (split; [vm_compute; reflexivity|]).
  apply (C88_twice rg_env (rg_opts false false ["d/go.mod"]) (rg_files ["A"]) (fun _ => None) (fun _ => None) _ _ _ _ rg_sort rg_iter rg_entries (rg_pair _ _) (rg_back _) (fun _ => eq_refl) (rg_pair _ _)).
Qed.
(** after an update a run may find as much as before: for a lockfile without a
    config, or when ignores are skipped *)
Theorem C88_silenced_refuted : exists E O1 O2 fs cache s1 s2 s1' s2', SorterOk (e_sort E) /\ IterOk (e_iter E) /\ EntriesOk E
  /\ checking O1 /\ checking O2 /\ o_update O1 = true /\ o_update O2 = true /\ (forall tr, read_back E tr)
  /\ run E O1 (start fs cache) = (Ok 1%Z, s1) /\ run E O1 (start (s_files s1) cache) = (Ok 1%Z, s1')
  /\ run E O2 (start fs cache) = (Ok 1%Z, s2) /\ run E O2 (start (s_files s2) cache) = (Ok 1%Z, s2')
  /\ o_no_ignores O1 = false /\ (exists ck, In ck (checks (s_trace s1)) /\ ck_cfg ck = "") /\ (forall ck, In ck (checks (s_trace s2)) -> ck_cfg ck <> "").
Proof.
  set (O1 := rg_opts false true ["d/go.mod"; "e"]). set (O2 := rg_opts true false ["d/go.mod"]).
  exists rg_env, O1, O2, (rg_files ["A"]), (fun _ => None), (snd (rg_run O1 (rg_files ["A"]))), (snd (rg_run O2 (rg_files ["A"]))).
  exists (snd (rg_run O1 (s_files (snd (rg_run O1 (rg_files ["A"])))))), (snd (rg_run O2 (s_files (snd (rg_run O2 (rg_files ["A"])))))).
  split; [exact rg_sort|]. split; [exact rg_iter|]. split; [exact rg_entries|]. split; [repeat split|]. split; [repeat split|].
  do 2 (split; [reflexivity|]). split; [exact rg_back|]. do 4 (split; [apply rg_ends; vm_compute; reflexivity|]). split; [reflexivity|]. split.
  - exists (nth 1 (checks (s_trace (snd (rg_run O1 (rg_files ["A"]))))) (mkChk "" [] [] [] (mkRep empty_lockfile []))). split; [|vm_compute; reflexivity].
    apply nth_In. vm_compute. lia.
  - intros ck I. assert (Q : map ck_cfg (checks (s_trace (snd (rg_run O2 (rg_files ["A"]))))) = ["d/.osv-detector.yml"]) by (vm_compute; reflexivity).
    apply (in_map ck_cfg) in I. rewrite Q in I. destruct I as [<-|[]]. discriminate.
Qed.
Print Assumptions C88_silenced_refuted.
