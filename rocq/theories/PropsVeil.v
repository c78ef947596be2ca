(** C89: archives kept in the cache do not show. *)
From Verif Require Import GoStr GoStrFacts GoSort GoSortFacts Types Json Osv MemDB Path Api ZipDB ZipSpec ZipProofs DirDB DbConfig Configer GoMap Lockfile Report Main MainSpec.
From Verif Require Import SemNum OsvExamples ConfigExamples MainExamples ReignoreSpec VeilSpec VeilProofs PropsOffline PropsReignore.

(** Two runs that differ in what is in their caches end, write and ask for the
    same, provided that what the server confirms to be current is current; and
    they leave caches of which this is true. *)
Theorem C89_same : forall E O fs cache cache' r s r' s',
  (forall u v, e_cache_path E u = e_cache_path E v -> u = v) -> o_offline O = false -> (forall u, steady (w_answer (e_world E)) u) ->
  all_genuine E cache -> all_genuine E cache' ->
  run E O (start fs cache) = (r, s) -> run E O (start fs cache') = (r', s') ->
  r = r' /\ map bare (s_trace s) = map bare (s_trace s') /\ s_files s = s_files s' /\ all_genuine E (s_cache s) /\ all_genuine E (s_cache s').
Proof. exact (fun E O fs cache cache' r s r' s' J N S => runs_veiled E O J N S fs cache cache' r s r' s'). Qed.
(** so a run with the cache that another run (of other files, with other
    options) left is like one with an empty cache *)
Theorem C89_fresh : forall E O O1 fs fs1 r1 s1 r s r' s',
  (forall u v, e_cache_path E u = e_cache_path E v -> u = v) -> o_offline O1 = false -> o_offline O = false -> (forall u, steady (w_answer (e_world E)) u) ->
  run E O1 (start fs1 (fun _ => None)) = (r1, s1) ->
  run E O (start fs (s_cache s1)) = (r, s) -> run E O (start fs (fun _ => None)) = (r', s') ->
  r = r' /\ map bare (s_trace s) = map bare (s_trace s') /\ s_files s = s_files s'.
Proof. exact veil_fresh. Qed.
(** and updating ignores twice (C88) leaves nothing to report, also when the
    second run uses the cache of the first *)
Theorem C89_updated : forall E O fs c s c' s', SorterOk (e_sort E) -> IterOk (e_iter E) -> EntriesOk E ->
  (forall u v, e_cache_path E u = e_cache_path E v -> u = v) -> (forall u, steady (w_answer (e_world E)) u) ->
  checking O -> o_offline O = false -> o_update O = true -> o_no_ignores O = false ->
  run E O (start fs (fun _ => None)) = (Ok c, s) -> read_back E (s_trace s) ->
  run E O (start (s_files s) (s_cache s)) = (Ok c', s') ->
  (forall ck, In ck (checks (s_trace s)) -> ck_cfg ck <> "" /\ e_openable E (ck_cfg ck) = true) ->
  (c' = 0%Z <-> messages KErr (s_trace s') = []) /\ forall p, s_files s' p = s_files s p.
Proof.
  intros E O fs c s c' s' SO IT EO J S CH N U NI R1 RB R2 A. destruct (run E O (start (s_files s) (fun _ => None))) as [r3 s3] eqn:R3.
  destruct (C89_fresh E O O (s_files s) fs _ _ _ _ _ _ J N N S R1 R2 R3) as (<- & T & F).
  pose proof (C88_again E O fs _ _ c s c' s3 SO IT EO CH U NI R1 RB (fun _ => eq_refl) R3 A) as X.
  destruct (C88_twice E O fs _ _ (Ok c) s (Ok c') s3 SO IT EO R1 RB (fun _ => eq_refl) R3) as (_ & _ & Y).
  rewrite <- (messages_bare KErr (s_trace s')), T, messages_bare. split; [exact X|]. intros p. now rewrite F.
Qed.
Print Assumptions C89_same.
Print Assumptions C89_fresh.
Print Assumptions C89_updated.

(** archives that can only be opened if they are what the server delivers *)
Definition vl_world : World := mkWorld ex_parse_uri (fun b => if seqb b "zip" then Some of_entries else None) ex_dec (of_answer true) (fun _ => NGone).
Definition vl_env : Env := mkEnv vl_world num_sem isort (fun _ l => l) (fun _ s => s) (fun _ => "err")
  (fun v => JObj [("id", JStr (o_id v))]) mx_stat (fun _ _ => Ok ([ex_pkg "1.0"], None)) (fun _ => None) (fun u => u) yj_dec yj_enc (fun _ => true)
  (fun _ _ pkgs => Ok (inr (map (fun _ => []) pkgs))) "v".
Definition vl_run (cache : files) := run vl_env (mx_opts ["e"]) (start of_files cache).
Lemma vl_pair cache : run vl_env (mx_opts ["e"]) (start of_files cache) = (fst (vl_run cache), snd (vl_run cache)).
Proof. unfold vl_run. apply surjective_pairing. Qed.
Lemma vl_steady u : steady (w_answer (e_world vl_env)) u.
Proof.
  change (w_answer (e_world vl_env)) with (of_answer true). split; [|split].
  - intros [x y]. unfold of_answer. cbn [rq_cond]. destruct (seqb x "tag"); [right; now exists "", "", (Some "")|now left].
  - intros e d b. discriminate.
  - intros e d b H. unfold of_answer in H. cbn [rq_cond] in H. injection H as <- <- _. split; [left; discriminate|reflexivity].
Qed.
(** the first run downloads two archives and asks about one again; the second asks with
    conditions; they find the same *)
Notation vl_first := (vl_run (fun _ => None)).
Notation vl_again := (vl_run (s_cache (snd vl_first))).
Example C89_case : fst vl_first = Ok 1%Z /\ fst vl_again = fst vl_first
  /\ map bare (s_trace (snd vl_again)) = map bare (s_trace (snd vl_first)) /\ s_files (snd vl_again) = s_files (snd vl_first)
  /\ flat_map (fun e => match e with EZip q => [rq_cond q] | _ => [] end) (s_trace (snd vl_first)) = [None; Some ("tag", "today"); None]
  /\ flat_map (fun e => match e with EZip q => [rq_cond q] | _ => [] end) (s_trace (snd vl_again)) = [Some ("tag", "today"); Some ("tag", "today"); Some ("tag", "today")].
Proof.
  split; [vm_compute; reflexivity|].
  destruct (C89_fresh vl_env (mx_opts ["e"]) (mx_opts ["e"]) of_files of_files _ _ _ _ _ _ (fun u v H => H) eq_refl eq_refl vl_steady
    (vl_pair (fun _ => None)) (vl_pair (s_cache (snd vl_first))) (vl_pair (fun _ => None))) as (Q1 & Q2 & Q3).
  split; [exact Q1|]. split; [exact Q2|]. split; [exact Q3|]. split; vm_compute; reflexivity.
Qed.

(** a cache in which the body was changed, but not the etag, shows *)
Theorem C89_stale_refuted : exists E O fs cache cache' s s',
  (forall u v, e_cache_path E u = e_cache_path E v -> u = v) /\ o_offline O = false /\ (forall u, steady (w_answer (e_world E)) u)
  /\ all_genuine E cache /\ (forall u content, cache' (e_cache_path E u) = Some content -> fst (dec_cache content) <> None)
  /\ run E O (start fs cache) = (Ok 1%Z, s) /\ run E O (start fs cache') = (Ok 127%Z, s').
Proof.
  set (bad := enc_cache (Some (mkCache "https://x/c.zip" "tag" "today" (Some "pie")))).
  set (cache' := fun p => if seqb p "https://x/c.zip" then Some bad else None).
  exists vl_env, (mx_opts ["e"]), of_files, (fun _ => None), cache', (snd vl_first), (snd (vl_run cache')).
  split; [auto|]. split; [reflexivity|]. split; [exact vl_steady|]. split; [intros u content c e d b H; discriminate H|]. split.
  { intros u content H. unfold cache' in H. cbn [e_cache_path vl_env] in H. destruct (seqb u _); [|discriminate H]. injection H as <-. unfold bad. rewrite cache_round. discriminate. }
  assert (H1 : fst vl_first = Ok 1%Z) by (vm_compute; reflexivity). assert (H2 : fst (vl_run cache') = Ok 127%Z) by (vm_compute; reflexivity).
  split; [rewrite <- H1|rewrite <- H2]; apply vl_pair.
Qed.
Print Assumptions C89_stale_refuted.
