From Verif Require Import GoStr GoStrFacts Types MemDB MemDBProofs RegexCache.
Local Open Scope list_scope.

Lemma nth_update {A} (l : list A) i x j : nth_error (update l i x) j = if Nat.eqb i j then (match nth_error l i with Some _ => Some x | None => None end) else nth_error l j.
Proof. revert i j. induction l as [|y l IH]; intros [|i] [|j]; cbn; auto; try (destruct (Nat.eqb i j); reflexivity). Qed.
Section WithRegexp.
Variable valid : string -> bool.
(** what a call under way has a right to *)
Definition fits (w : world) (e : string) (p : progress) : Prop :=
  match p with
  | Called | Missed => True
  | Compiled o => nth_error (w_objects w) o = Some e /\ valid e = true
  | Returned o => map_get e (w_cache w) = Some o
  | Panicked => valid e = false
  end.
Record inv (w : world) : Prop := mkInv {
  in_cache : forall e o, map_get e (w_cache w) = Some o -> nth_error (w_objects w) o = Some e /\ valid e = true;
  in_calls : forall i e p, nth_error (w_calls w) i = Some (e, p) -> fits w e p }.
Lemma inv_start : inv at_start.
Proof. split; cbn; [discriminate|]. intros [] e p; discriminate. Qed.
Lemma fits_grow w w' e p : (forall o x, nth_error (w_objects w) o = Some x -> nth_error (w_objects w') o = Some x) ->
  (forall x o, map_get x (w_cache w) = Some o -> map_get x (w_cache w') = Some o) -> fits w e p -> fits w' e p.
Proof. intros O C. destruct p; cbn; auto. intros [A B]. auto. Qed.
Lemma nth_app_keep {A} (l r : list A) i x : nth_error l i = Some x -> nth_error (l ++ r) i = Some x.
Proof. intros H. rewrite nth_error_app1; [exact H|]. apply nth_error_Some. congruence. Qed.
Lemma inv_next w i : inv w -> inv (next valid w i).
Proof.
  intros [C F]. unfold next. destruct (nth_error (w_calls w) i) as [[e p]|] eqn:N; [|split; auto]. pose proof (F _ _ _ N) as P.
  assert (U : forall (cs : world) q, (forall x y, fits w x y -> fits cs x y) -> fits cs e q -> forall j x y, nth_error (update (w_calls w) i (e, q)) j = Some (x, y) -> fits cs x y).
  { intros cs q K Q j x y. rewrite nth_update, N. destruct (Nat.eqb i j); [intros E; injection E as <- <-; exact Q|]. intros E. apply K. eauto. }
  destruct p as [| |o|o|]; cbn [fits] in P.
  - destruct (map_get e (w_cache w)) as [o|] eqn:G; (split; [exact C|]); cbn [w_calls]; apply (U (mkWorld (w_objects w) (w_cache w) _)); cbn; auto.
  - destruct (valid e) eqn:V.
    + assert (K : forall o x, nth_error (w_objects w) o = Some x -> nth_error (w_objects w ++ [e]) o = Some x) by (intros; now apply nth_app_keep).
      split; cbn [w_cache w_objects w_calls].
      * intros x o G. destruct (C x o G). auto.
      * apply (U (mkWorld (w_objects w ++ [e]) (w_cache w) _)); [intros x y; now apply fits_grow|]. cbn. split; [|exact V]. rewrite nth_error_app2, Nat.sub_diag by lia. reflexivity.
    + split; [exact C|]. cbn [w_calls]. apply (U (mkWorld (w_objects w) (w_cache w) _)); cbn; auto.
  - destruct P as [P V]. destruct (map_get e (w_cache w)) as [o'|] eqn:G.
    + split; [exact C|]. cbn [w_calls]. apply (U (mkWorld (w_objects w) (w_cache w) _)); cbn; auto.
    + split; cbn [w_cache w_objects w_calls].
      * intros x o'. rewrite map_get_set. destruct (seqb_spec e x) as [<-|]; [intros E; injection E as <-; auto|apply C].
      * apply (U (mkWorld (w_objects w) (map_set e o (w_cache w)) _)).
        -- intros x y. apply fits_grow; [auto|]. intros z o' E. cbn. rewrite map_get_set. destruct (seqb_spec e z) as [<-|]; [congruence|exact E].
        -- cbn. rewrite map_get_set. now rewrite seqb_refl.
  - split; auto.
  - split; auto.
Qed.
Lemma inv_act w a : inv w -> inv (act valid w a).
Proof.
  destruct a as [e|i]; [|apply inv_next]. intros [C F]. split; [exact C|]. cbn. intros i x p N. destruct (Nat.lt_ge_cases i (List.length (w_calls w))) as [L|L].
  - rewrite nth_error_app1 in N by exact L. exact (F _ _ _ N).
  - rewrite nth_error_app2 in N by exact L. destruct (i - List.length (w_calls w)) as [|k]; cbn in N; [injection N as <- <-; exact I|destruct k; discriminate].
Qed.
Lemma inv_run l : forall w, inv w -> inv (run valid w l).
Proof. induction l as [|a l IH]; intros w H; [exact H|]. cbn. apply IH. now apply inv_act. Qed.
Lemma inv_reached l : inv (run valid at_start l).
Proof. apply inv_run, inv_start. Qed.
(** what does not change any more *)
Lemma next_objects w i : exists r, w_objects (next valid w i) = w_objects w ++ r.
Proof.
  unfold next. destruct (nth_error (w_calls w) i) as [[e p]|]; [|exists []; now rewrite app_nil_r]. destruct p as [| |o|o|]; try (exists []; now rewrite app_nil_r); destruct (map_get e (w_cache w)), (valid e); cbn; eauto; exists []; now rewrite app_nil_r.
Qed.
Lemma run_objects l : forall w, exists r, w_objects (run valid w l) = w_objects w ++ r.
Proof.
  induction l as [|a l IH]; intros w; [exists []; now rewrite app_nil_r|]. cbn. destruct (IH (act valid w a)) as (r & E). change (fold_left _ l _) with (run valid (act valid w a) l). rewrite E.
  assert (exists r', w_objects (act valid w a) = w_objects w ++ r') as (r' & ->) by (destruct a; [exists []; cbn; now rewrite app_nil_r|apply next_objects]). exists (r' ++ r). now rewrite app_assoc.
Qed.
Lemma next_other w i j : i <> j -> nth_error (w_calls (next valid w i)) j = nth_error (w_calls w) j.
Proof.
  intros N. assert (U : forall x, nth_error (update (w_calls w) i x) j = nth_error (w_calls w) j) by (intros x; rewrite nth_update; destruct (Nat.eqb_spec i j); congruence).
  unfold next. destruct (nth_error (w_calls w) i) as [[e p]|]; [|reflexivity]. destruct p; try reflexivity; try (destruct (map_get e (w_cache w)); apply U). destruct (valid e); apply U.
Qed.
Definition ended (p : progress) : Prop := (exists o, p = Returned o) \/ p = Panicked.
Lemma act_ended w a i e p : nth_error (w_calls w) i = Some (e, p) -> ended p -> nth_error (w_calls (act valid w a)) i = Some (e, p).
Proof.
  intros N E. destruct a as [x|j]; cbn [act w_calls]; [now apply nth_app_keep|]. destruct (Nat.eq_dec j i) as [->|D]; [|now rewrite next_other].
  unfold next. rewrite N. destruct E as [(o & ->)| ->]; exact N.
Qed.
Lemma run_ended l : forall w i e p, nth_error (w_calls w) i = Some (e, p) -> ended p -> nth_error (w_calls (run valid w l)) i = Some (e, p).
Proof. induction l as [|a l IH]; intros w i e p N E; [exact N|]. cbn. apply IH; [now apply act_ended|exact E]. Qed.
(** a call needs three steps of its own at most, whatever happens between them *)
Definition left_to_do (p : progress) : nat := match p with Called => 3 | Missed => 2 | Compiled _ => 1 | _ => 0 end.
Lemma next_left w i e p : nth_error (w_calls w) i = Some (e, p) -> exists q, nth_error (w_calls (next valid w i)) i = Some (e, q) /\ left_to_do q <= left_to_do p - 1.
Proof.
  intros N. assert (U : forall x, nth_error (update (w_calls w) i x) i = Some x) by (intros x; rewrite nth_update, Nat.eqb_refl, N; reflexivity).
  unfold next. rewrite N. destruct p as [| |o|o|].
  - destruct (map_get e (w_cache w)); cbn [w_calls]; (eexists; split; [apply U|cbn; lia]).
  - destruct (valid e); cbn [w_calls]; (eexists; split; [apply U|cbn; lia]).
  - destruct (map_get e (w_cache w)); cbn [w_calls]; (eexists; split; [apply U|cbn; lia]).
  - eexists. split; [exact N|cbn; lia].
  - eexists. split; [exact N|cbn; lia].
Qed.
Definition steps_of (i : nat) (l : list action) : nat := List.length (filter (fun a => match a with Go j => Nat.eqb i j | Call _ => false end) l).
Lemma run_left l : forall w i e p, nth_error (w_calls w) i = Some (e, p) -> exists q, nth_error (w_calls (run valid w l)) i = Some (e, q) /\ left_to_do q <= left_to_do p - steps_of i l.
Proof.
  induction l as [|a l IH]; intros w i e p N; [exists p; split; [exact N|cbn; lia]|]. cbn [run fold_left]. change (fold_left _ l _) with (run valid (act valid w a) l).
  destruct a as [x|j].
  - destruct (IH (act valid w (Call x)) i e p) as (q & Q & L); [cbn; now apply nth_app_keep|]. exists q. split; [exact Q|exact L].
  - destruct (Nat.eq_dec i j) as [<-|D].
    + destruct (next_left w i e p N) as (q & Q & L). destruct (IH (act valid w (Go i)) i e q Q) as (q' & Q' & L'). exists q'. split; [exact Q'|]. unfold steps_of in *. cbn [filter]. rewrite Nat.eqb_refl. cbn [List.length]. lia.
    + destruct (IH (act valid w (Go j)) i e p) as (q & Q & L); [cbn; now rewrite next_other by congruence|]. exists q. split; [exact Q|]. unfold steps_of in *. cbn [filter]. destruct (Nat.eqb_spec i j); [congruence|exact L].
Qed.
(** the four claims *)
Lemma cache_right l i e o : nth_error (w_calls (run valid at_start l)) i = Some (e, Returned o) -> nth_error (w_objects (run valid at_start l)) o = Some e.
Proof. intros N. destruct (inv_reached l) as [C F]. exact (proj1 (C _ _ (F _ _ _ N))). Qed.
Lemma cache_same l i j e o o' : nth_error (w_calls (run valid at_start l)) i = Some (e, Returned o) -> nth_error (w_calls (run valid at_start l)) j = Some (e, Returned o') -> o = o'.
Proof. intros N M. destruct (inv_reached l) as [C F]. pose proof (F _ _ _ N) as A. pose proof (F _ _ _ M) as B. cbn in A, B. congruence. Qed.
Lemma run_app l l' w : run valid w (l ++ l') = run valid (run valid w l) l'.
Proof. apply fold_left_app. Qed.
Lemma cache_stays l l' i e o : nth_error (w_calls (run valid at_start l)) i = Some (e, Returned o) ->
  nth_error (w_calls (run valid at_start (l ++ l'))) i = Some (e, Returned o) /\ nth_error (w_objects (run valid at_start (l ++ l'))) o = Some e.
Proof.
  intros N. assert (X : nth_error (w_calls (run valid at_start (l ++ l'))) i = Some (e, Returned o)) by (rewrite run_app; apply run_ended; [exact N|left; eauto]). split; [exact X|]. eapply cache_right; exact X.
Qed.
Lemma cache_ends l l' i e p : nth_error (w_calls (run valid at_start l)) i = Some (e, p) -> 3 <= steps_of i l' ->
  exists q, nth_error (w_calls (run valid at_start (l ++ l'))) i = Some (e, q) /\ if valid e then exists o, q = Returned o else q = Panicked.
Proof.
  intros N S. rewrite run_app. destruct (run_left l' _ _ _ _ N) as (q & Q & L). exists q. split; [exact Q|]. rewrite <- run_app in Q. destruct (inv_reached (l ++ l')) as [C F]. pose proof (F _ _ _ Q) as P.
  assert (left_to_do q = 0) as Z by (destruct p; cbn [left_to_do] in L; lia). destruct q; cbn in Z, P; try discriminate.
  - destruct (C _ _ P) as [_ ->]. eauto.
  - now rewrite P.
Qed.
End WithRegexp.
