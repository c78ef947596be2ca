(** Proofs about runs that are given more (C84). *)
From Verif Require Import GoStr GoStrFacts GoSort GoMap Types Osv OsvSpec MemDB MemDBSpec MemDBProofs ZipDB DbConfig Configer Lockfile Report ReportSpec Main MainSpec EndSpec EndProofs GrowSpec.

Lemma alike_same o v r : osv_same o v -> alike o r -> alike v r.
Proof.
  intros S [A|A]; [left; apply osv_same_trans with o; [now apply osv_same_sym|exact A]|right]. now apply (related_same r r o v); [apply osv_same_refl|exact S|].
Qed.
Section Grow.
Variables E E' : Env.
Variables O O' : Opts.
Variables fs fs' : string -> fread.
Variables cache cache' : files.
Hypothesis G : grown E O fs cache E' O' fs' cache'.
Hypothesis SO : SorterOk (e_sort E).
Hypothesis IO : IterOk (e_iter E).
Hypothesis EO : EntriesOk E.
Hypothesis SO' : SorterOk (e_sort E').
Hypothesis IO' : IterOk (e_iter E').
Hypothesis EO' : EntriesOk E'.
Hypothesis CO : checking O.
Hypothesis CO' : checking O'.
Hypothesis D : distinct_names E O fs.
Hypothesis D' : distinct_names E' O' fs'.

Lemma grounds_grow l c d p v : uses E O fs l c d -> In p (lf_pkgs l) -> grounds E O cache d l p v ->
  exists l' c' o, uses E' O' fs' l' c' d /\ lf_path l' = lf_path l /\ In p (lf_pkgs l') /\ has_char ":" (p_eco p) = false /\ osv_same o v
    /\ must_hold E' O' cache' d o /\ o_withdrawn o = None /\ checkable (e_sem E') [o] p /\ osv_affects (e_sem E') o p.
Proof.
  intros U P W. destruct G as [Sem H]. destruct (H l c d U) as (A & (l' & c' & U' & Pa & I) & M & K). destruct W as [[T _]|(o & S & Mo & Wo & Af)]; [contradiction|].
  destruct (K o p Mo P) as [Co Ch]. exists l', c', o. rewrite Sem. repeat match goal with |- _ /\ _ => split end; auto.
Qed.
Theorem kept : forall code s code' s', run E O (start fs cache) = (Ok code, s) -> run E' O' (start fs' cache') = (Ok code', s') -> code' = 0%Z \/ code' = 1%Z ->
  forall ck row v, In ck (checks (s_trace s)) -> In row (rp_pkgs (ck_report ck)) -> In v (pv_vulns row ++ pv_ignored row) ->
  still_listed (s_trace s') (lf_path (rp_lock (ck_report ck))) (pv_pkg row) v.
Proof.
  intros code s code' s' R R' C ck row v I1 I2 I3. destruct (run_every E O SO IO EO fs cache code s CO D R ck row v I1 I2 I3) as (c & d & U & P & _ & _ & W).
  destruct (grounds_grow _ _ _ _ _ U P W) as (l' & c' & o & U' & Pa & P' & Co & S & M & Wd & Ch & Af).
  destruct (run_accounts E' O' SO' IO' EO' fs' cache' code' s' CO' D' R' C l' c' d (pv_pkg row) o U' P' Co M Wd Ch Af) as (ck' & row' & r & g & J1 & J2 & J3 & J4 & J5 & J6 & J7).
  exists ck', row', r, g. rewrite J2. repeat split; auto; [now apply alike_same with o|]. apply in_app_iff. destruct J7 as [[]|[]]; auto.
Qed.
Theorem kept_exit : forall s code' s', run E O (start fs cache) = (Ok 1%Z, s) -> run E' O' (start fs' cache') = (Ok code', s') -> code' = 0%Z \/ code' = 1%Z ->
  (forall l c d, uses E' O' fs' l c d -> ignores_of O' c = []) -> code' = 1%Z.
Proof.
  intros s code' s' R R' [->|C] N; [exfalso|exact C]. destruct (run_grounds E O SO IO EO fs cache s CO D R) as (l & c & d & p & v & U & P & _ & W).
  destruct (grounds_grow _ _ _ _ _ U P W) as (l' & c' & o & U' & _ & P' & Co & S & M & Wd & Ch & Af).
  destruct (clean_ignored E' O' SO' IO' EO' fs' cache' s' CO' D' R' l' c' d p o U' P' Co M Wd Ch Af) as (r & g & _ & _ & I).
  now rewrite (N l' c' d U') in I.
Qed.
End Grow.
