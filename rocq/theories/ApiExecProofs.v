From Verif Require Import GoStr GoSort Types Osv MemDB ErrGroup ErrGroupProofs Api ApiSpec ApiProofs ApiExec.

Lemma set_slot_at {A} (l1 l2 : list (option A)) a : set_slot (l1 ++ None :: l2) (List.length l1) a = l1 ++ Some a :: l2.
Proof. induction l1 as [|x l1 IH]; cbn; [reflexivity|]. now rewrite IH. Qed.
Lemma gsteps_trans {A E} n limit (serve : nat -> E + A -> Prop) k1 k2 s1 s2 s3 :
  gsteps n limit serve k1 s1 s2 -> gsteps n limit serve k2 s2 s3 -> exists k, gsteps n limit serve k s1 s3.
Proof.
  intros H1 H2. revert k1 s1 H1. induction H2 as [s|k s1 s2 s3 H IH Hs]; intros k1 s0 H1; [eauto|].
  destruct (IH _ _ H1) as (k' & K). exists (S k'). econstructor; eauto.
Qed.
Lemma first_err_app {E A} (l : list (E + A)) r : first_err (l ++ [r]) =
  match first_err l with Some e => Some e | None => match r with inl e => Some e | inr _ => None end end.
Proof. induction l as [|[e|a] l IH]; cbn; [destruct r; reflexivity|reflexivity|exact IH]. Qed.
(** one task after the other *)
Lemma group_in_order {A E} n limit (serve : nat -> E + A -> Prop) (f : nat -> E + A) : 0 < limit -> (forall i, i < n -> serve i (f i)) ->
  exists k, gsteps n limit serve k (g_init n) (mkG n [] (map (fun i => slot (f i)) (seq 0 n)) (first_err (map f (seq 0 n))) (seq 0 n)).
Proof.
  intros HL Hf.
  assert (P : forall m, m <= n -> exists k, gsteps n limit serve k (g_init n)
    (mkG m [] (map (fun i => slot (f i)) (seq 0 m) ++ repeat None (n - m)) (first_err (map f (seq 0 m))) (seq 0 m))).
  { induction m as [|m IH]; intros Hm.
    - exists 0. cbn. rewrite Nat.sub_0_r. constructor.
    - destruct IH as (k & K); [lia|]. replace (n - m) with (S (n - S m)) in K by lia. cbn [repeat] in K.
      set (sl := map (fun i => slot (f i)) (seq 0 m)) in *. set (er := first_err (map f (seq 0 m))) in *. set (rest := repeat None (n - S m)) in *.
      assert (Ls : List.length sl = m) by (unfold sl; now rewrite map_length, seq_length).
      pose proof (step_go n limit serve m [] (sl ++ None :: rest) er (seq 0 m) ltac:(lia) HL) as S1. cbn [app] in S1.
      pose proof (step_send n limit serve (S m) [] m [] (sl ++ None :: rest) er (seq 0 m)) as S2. cbn [app] in S2.
      pose proof (step_reply n limit serve (S m) [] m [] (sl ++ None :: rest) er (seq 0 m ++ [m]) (f m) (Hf m ltac:(lia))) as S3. cbn [app] in S3.
      rewrite seq_S, !map_app. cbn [Nat.add map]. rewrite <- app_assoc. cbn [app]. rewrite first_err_app. fold sl er.
      destruct (f m) as [e|a] eqn:Q; cbn [slot].
      + pose proof (step_fail n limit serve (S m) [] m [] (sl ++ None :: rest) er (seq 0 m ++ [m]) e) as S4. cbn [app] in S4.
        exists (S (S (S (S k)))). eapply gs_step; [eapply gs_step; [eapply gs_step; [eapply gs_step; [exact K|exact S1]|exact S2]|exact S3]|exact S4].
      + pose proof (step_store n limit serve (S m) [] m [] (sl ++ None :: rest) er (seq 0 m ++ [m]) a) as S4. cbn [app] in S4.
        assert (Ss : set_slot (sl ++ None :: rest) m a = sl ++ Some a :: rest) by (rewrite <- Ls at 1; apply set_slot_at). rewrite Ss in S4.
        exists (S (S (S (S k)))). eapply gs_step; [eapply gs_step; [eapply gs_step; [eapply gs_step; [exact K|exact S1]|exact S2]|exact S3]|].
        destruct er; exact S4. }
  destruct (P n (le_n n)) as (k & K). rewrite Nat.sub_diag in K. cbn [repeat] in K. rewrite app_nil_r in K. eauto.
Qed.
Lemma map_seq_nth {A B} (g : A -> B) (l : list A) d : map (fun i => g (nth i l d)) (seq 0 (List.length l)) = map g l.
Proof.
  induction l as [|x l IH]; [reflexivity|]. cbn [List.length seq map nth]. f_equal. rewrite <- IH, <- seq_shift, map_map. reflexivity.
Qed.
Theorem api_executes S dec (post : string -> string -> http) (get : string -> http) db pkgs : exists posts gets,
  api_check S dec (fun u b h => h = post u b) (fun u h => h = get u) db pkgs (api_exec S dec post get db pkgs) posts gets.
Proof.
  unfold api_exec. destruct (batch_pkgs pkgs (api_batch db)) as [bs|] eqn:B; cbn [rbind]; [|exists [], []; now constructor].
  destruct (group_in_order (List.length bs) 100 (serve_batch (fun u b h => h = post u b) db bs)
    (fun i => batch_reply (nth i bs []) (post (bulk_endpoint db) (payload (nth i bs []))))) as (k & K); [lia| |].
  { intros i _. eexists. split; reflexivity. }
  pose proof (map_seq_nth (fun b => batch_reply b (post (bulk_endpoint db) (payload b))) bs []) as M1.
  pose proof (map_seq_nth (fun b => slot (batch_reply b (post (bulk_endpoint db) (payload b)))) bs []) as M2. cbv beta in M1, M2.
  rewrite M1, M2 in K. unfold exec_batches. rewrite map_map.
  destruct (first_err _) as [e|] eqn:Fe.
  - eexists _, _. eapply check_fails; [exact B|exact K| |reflexivity]. split; reflexivity.
  - set (ids := map o_id (unique (List.concat (gather (map (fun x => slot (batch_reply x (post (bulk_endpoint db) (payload x)))) bs))))).
    destruct (group_in_order (List.length ids) 200 (serve_fetch dec (fun u h => h = get u) db ids)
      (fun i => inr (fst (fetch_reply dec (get (osv_endpoint db (nth i ids ""))))))) as (k2 & K2); [lia| |].
    { intros i _. eexists. split; reflexivity. }
    eexists _, _.
    refine (check_works S dec _ _ db pkgs bs k _ (exec_fetch S dec get db ids) _ B K (conj eq_refl eq_refl) eq_refl _).
    cbn [g_slots]. fold ids. eexists k2, _. split; [exact K2|]. split; [split; reflexivity|]. split; [|reflexivity].
    unfold exec_fetch. cbn [g_slots]. rewrite map_map. cbn [slot]. f_equal.
    symmetry. exact (map_seq_nth (fun id => fst (fetch_reply dec (get (osv_endpoint db id)))) ids "").
Qed.
