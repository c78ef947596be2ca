(** C56: go.mod *)
From Verif Require Import GoStr GoStrFacts Types GoMap Scan LockIO LockSpec GoLock GoSpec GoProofs PropsListLocks.
Local Open Scope string_scope.

(** what is reported stands for requirements, and every requirement is stood for *)
Theorem C56_go : forall it files modfile path content f, IterOk it -> files path = Text content false -> modfile path content = Some f ->
  exists ps, parse_go_lock it files modfile path = Ok (inr ps)
    /\ NoDup (map name_at ps) /\ (forall p, In p ps -> stands_for f p) /\ (forall p, stands_for f p -> exists q, In q ps /\ name_at q = name_at p).
Proof. exact (fun it files modfile path content f IT => go_lock it IT files modfile path content f). Qed.
Print Assumptions C56_go.
(** exactly these, each once, when no version has an @ in it *)
Theorem C56_exact : forall it files modfile path content f, IterOk it -> files path = Text content false -> modfile path content = Some f -> plain_versions f ->
  exists ps, parse_go_lock it files modfile path = Ok (inr ps) /\ NoDup ps /\ forall p, In p ps <-> stands_for f p.
Proof. exact go_exact. Qed.
Print Assumptions C56_exact.
Theorem C56_unread : forall it files modfile path, (forall content f, files path = Text content false -> modfile path content <> Some f) ->
  parse_go_lock it files modfile path = fails_with (match files path with Text _ false => FParse path | _ => FRead path end).
Proof. exact go_unread. Qed.
Print Assumptions C56_unread.
(** a requirement no directive is about is reported as it is *)
Theorem C56_kept : forall f req p, plain_paths f -> In req (gm_require f) -> (forall r, In r (gm_replace f) -> ~ about r req) -> reported req p -> stands_for f p.
Proof.
  intros f req p P I N R. exists req, req. split; [now apply required_plain|]. split; [|exact R]. apply replaced_none; [now apply P|]. intros r J. split; [now apply P|now apply N].
Qed.
Print Assumptions C56_kept.
(** a requirement one directive is about is reported as its replacement, unless
    a later one is about all versions of the replacement's path *)
Theorem C56_replaced : forall f req a r b p, plain_paths f -> In req (gm_require f) -> gm_replace f = (a ++ r :: b)%list -> about r req ->
  (forall x, In x (a ++ b) -> ~ about x req) -> (forall x, In x b -> mod_version (rp_old x) = "" -> mod_path (rp_old x) <> mod_path (rp_new r)) ->
  reported (rp_new r) p -> stands_for f p.
Proof.
  intros f req a r b p P I E A N C R. exists req, (rp_new r). split; [now apply required_plain|]. split; [|exact R]. rewrite E. apply replaced_one; auto; [now apply P|]. intros x X. apply P. now rewrite E.
Qed.
Print Assumptions C56_replaced.
(** each requirement stands for one module, and is reported as one package *)
Theorem C56_unique : forall f req m m' p p', replaced req (gm_replace f) req m -> replaced req (gm_replace f) req m' -> reported m p -> reported m' p' -> m = m' /\ p = p'.
Proof.
  intros f req m m' p p' A B R R'. pose proof (replaced_fun _ _ _ _ _ A B) as <-. apply reported_iff in R as ->, R' as ->. auto.
Qed.
Print Assumptions C56_unique.

Definition go_a := mkModule "x.org/a" "v1.0.0".
Definition go_b := mkModule "x.org/b" "v2.0.0".
Definition go_c := mkModule "x.org/c" "v3.0.0".
Definition go_fork := mkModule "x.org/fork" "v1.0.1".
Definition go_file : GoMod := mkGoMod [go_a; go_b; go_c] [mkReplace (mkModule "x.org/a" "") go_fork; mkReplace go_b go_c; mkReplace (mkModule "x.org/c" "v9.9.9") go_fork].
Definition go_reports (f : GoMod) : pres := parse_go_lock lx_iter (lx_file "go") (fun _ _ => Some f) "/l".
Example C56_case : go_reports go_file = Ok (inr [plain_pkg "x.org/fork" "1.0.1" "Go"; plain_pkg "x.org/c" "3.0.0" "Go"]) /\ plain_versions go_file /\ plain_paths go_file.
Proof.
  split; [vm_compute; reflexivity|]. split; (split; [intros m I|intros r I]); cbn in I; repeat destruct I as [<-|I]; try destruct I; reflexivity.
Qed.
Example C56_replaced_case : stands_for go_file (plain_pkg "x.org/fork" "1.0.1" "Go") /\ stands_for go_file (plain_pkg "x.org/c" "3.0.0" "Go").
Proof.
  split.
  - refine (C56_replaced go_file go_a [] _ _ _ (proj2 (proj2 C56_case)) (or_introl eq_refl) eq_refl (conj eq_refl (or_introl eq_refl)) _ _ _).
    + intros x [<-|[<-|[]]] [E _]; discriminate.
    + intros x [<-|[<-|[]]] E; discriminate.
    + now apply reported_iff.
  - refine (C56_kept go_file go_c _ (proj2 (proj2 C56_case)) _ _ _); [cbn; auto|intros r [<-|[<-|[<-|[]]]] [E F]; try discriminate; destruct F; discriminate|now apply reported_iff].
Qed.
(** A directive for a module that is not required can have an effect: it is
    also applied to what another directive put in place. *)
Definition unrequired_has_no_effect : Prop := forall reqs a r b, (forall m, In m reqs -> mod_path m <> mod_path (rp_old r)) ->
  forall p, stands_for (mkGoMod reqs (a ++ r :: b)) p <-> stands_for (mkGoMod reqs (a ++ b)) p.
Lemma go_in f ps : go_reports f = Ok (inr ps) -> plain_versions f -> forall p, In p ps <-> stands_for f p.
Proof.
  intros E P. destruct (go_exact lx_iter (lx_file "go") (fun _ _ => Some f) "/l" "go" f lx_iter_ok eq_refl eq_refl P) as (qs & E' & _ & I). unfold go_reports in E. rewrite E in E'. injection E' as <-. exact I.
Qed.
Theorem C56_chain_refuted : ~ unrequired_has_no_effect.
Proof.
  intros H. set (r1 := mkReplace (mkModule "x.org/a" "") go_b). set (r2 := mkReplace (mkModule "x.org/b" "") go_c).
  assert (V : forall rs, (rs = [r1; r2] \/ rs = [r1]) -> plain_versions (mkGoMod [go_a] rs)).
  { intros rs R. split; [intros m [<-|[]]; reflexivity|]. destruct R as [->| ->]; intros r I; cbn in I; repeat destruct I as [<-|I]; try destruct I; reflexivity. }
  specialize (H [go_a] [r1] r2 []). cbn [app] in H. assert (X : In (plain_pkg "x.org/b" "2.0.0" "Go") [plain_pkg "x.org/c" "3.0.0" "Go"]); [|destruct X as [X|[]]; discriminate].
  apply (go_in (mkGoMod [go_a] [r1; r2]) _ eq_refl (V _ (or_introl eq_refl))). apply H; [intros m [<-|[]]; vm_compute; discriminate|]. apply (go_in (mkGoMod [go_a] [r1]) [plain_pkg "x.org/b" "2.0.0" "Go"] eq_refl (V _ (or_intror eq_refl))). now left.
Qed.
Print Assumptions C56_chain_refuted.
(** Nor does a directive for the version always win over one for all versions,
    as it does for Go. *)
Definition version_wins : Prop := forall f req r p, plain_paths f -> plain_versions f -> gm_require f = [req] -> In r (gm_replace f) -> rp_old r = req ->
  (forall x, In x (gm_replace f) -> rp_old x = req -> x = r) -> stands_for f p -> reported (rp_new r) p.
Theorem C56_specific_refuted : ~ version_wins.
Proof.
  intros H. set (f := mkGoMod [go_a] [mkReplace go_a (mkModule "x.org/a" "v1.0.9"); mkReplace (mkModule "x.org/a" "") go_b]).
  assert (V : plain_versions f /\ plain_paths f) by (split; (split; [intros m I|intros r I]); cbn in I; repeat destruct I as [<-|I]; try destruct I; reflexivity).
  assert (S : stands_for f (plain_pkg "x.org/b" "2.0.0" "Go")) by (apply (go_in f [plain_pkg "x.org/b" "2.0.0" "Go"] eq_refl (proj1 V)); now left).
  specialize (H f go_a (mkReplace go_a (mkModule "x.org/a" "v1.0.9")) (plain_pkg "x.org/b" "2.0.0" "Go") (proj2 V) (proj1 V) eq_refl (or_introl eq_refl) eq_refl).
  assert (U : forall x, In x (gm_replace f) -> rp_old x = go_a -> x = mkReplace go_a (mkModule "x.org/a" "v1.0.9")) by (intros x [<-|[<-|[]]] E; [reflexivity|discriminate]).
  specialize (H U S). apply reported_iff in H. discriminate.
Qed.
Print Assumptions C56_specific_refuted.
