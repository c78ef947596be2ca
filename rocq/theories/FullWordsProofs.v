From Verif Require Import GoStr GoStrFacts GoSort Types Osv OsvSpec MemDB Path Api ZipDB ZipSpec DirDB DirDBSpec DbConfig Configer Lockfile LockfileSpec Report Main MainSpec Warnings WarningsSpec FullRun FullRunSpec FullRunProofs FullTalkProofs.

Section Words.
Variable E : Env.
Variable V : Voice.
Variable O : Opts.
Notation Talk := (talk E V O).
Notation path_of c := (e_cache_path E (dc_url c)).
Lemma other_split {A} (f : A -> out) x l o before rest : (forall a, f a <> x) -> map f l ++ o = before ++ x :: rest ->
  exists b', before = map f l ++ b' /\ o = b' ++ x :: rest.
Proof.
  intros N. revert before. induction l as [|a l IH]; intros before H; [exists before; auto|]. cbn [map app] in *.
  destruct before as [|y before]; [injection H as H _; now apply N in H|]. injection H as <- H. destruct (IH _ H) as (b & -> & ->). exists b. auto.
Qed.
(** where a load is, the caches and databases are as those before it left them *)
Lemma talk_load f L o g K : Talk f L o g K -> forall before c rest, o = before ++ Did (ELoad c) :: rest ->
  exists f1 L1 names r w reqs said said' tail, Talk f L before f1 L1
    /\ load_db (e_world E) (f1 (path_of c)) c (o_offline O) (o_batch O) names = (r, w, reqs)
    /\ first_words E V c (f1 (path_of c)) said /\ last_words E V O c names (f1 (path_of c)) r w said'
    /\ rest = map Note said ++ map (fun q => Did (EZip q)) reqs ++ map Note said' ++ tail
    /\ Talk (saved E V f1 c w) (L1 ++ match r with Ok (inr d) => [d] | _ => [] end) tail g K.
Proof.
  induction 1 as [f L|f L e o g K D T IH|f L p a path parser o g K GF SP N1 N2 FP T IH|f L c0 ns r w reqs said said' o g K LD FW LW T IH|f L p l d os ts o g K GF PL ID HD BL T IH];
    intros before c rest Q.
  - destruct before; discriminate.
  - destruct before as [|x before]; cbn [app] in Q; [injection Q as -> _; destruct D as [D _]; edestruct D; reflexivity|]. injection Q as <- Q.
    destruct (IH _ _ _ Q) as (f1 & L1 & H). exists f1, L1. destruct H as (n & r & w & rq & s1 & s2 & tl & H & H'). exists n, r, w, rq, s1, s2, tl. split; [now constructor|exact H'].
  - apply other_split in Q as (b & -> & Q); [|discriminate]. destruct (IH _ _ _ Q) as (f1 & L1 & n & r & w & rq & s1 & s2 & tl & H & H').
    exists f1, L1, n, r, w, rq, s1, s2, tl. split; [eapply tk_parse; eauto|exact H'].
  - destruct before as [|x before]; cbn [app] in Q.
    + injection Q as <- Q. exists f, L, ns, r, w, reqs, said, said', o. split; [constructor|]. auto 6.
    + injection Q as <- Q. apply other_split in Q as (b & -> & Q); [|discriminate].
      apply (other_split (fun q => Did (EZip q))) in Q as (b2 & -> & Q); [|discriminate]. apply other_split in Q as (b3 & -> & Q); [|discriminate].
      destruct (IH _ _ _ Q) as (f1 & L1 & n' & r' & w' & rq & s1 & s2 & tl & H & H').
      exists f1, L1, n', r', w', rq, s1, s2, tl. split; [eapply tk_load; eauto|exact H'].
  - apply other_split in Q as (b & -> & Q); [|discriminate]. destruct (IH _ _ _ Q) as (f1 & L1 & n & r & w & rq & s1 & s2 & tl & H & H').
    exists f1, L1, n, r, w, rq, s1, s2, tl. split; [eapply tk_check; eauto|exact H'].
Qed.
Lemma talk_file f L o g K path : Talk f L o g K -> (forall c, In (Did (ELoad c)) o -> path_of c <> path) -> g path = f path.
Proof.
  induction 1 as [f L|f L e o g K D T IH|f L p a pth parser o g K GF SP N1 N2 FP T IH|f L c0 ns r w reqs said said' o g K LD FW LW T IH|f L p l d os ts o g K GF PL ID HD BL T IH];
    intros N; auto.
  - apply IH. intros c I. apply N. now right.
  - apply IH. intros c I. apply N. apply in_or_app. now right.
  - rewrite IH; [|intros c I; apply N; right; do 3 (apply in_or_app; right); exact I].
    assert (X : path_of c0 <> path) by (apply N; now left). unfold saved. destruct w; [|reflexivity]. destruct (v_write_err V (path_of c0)); [reflexivity|].
    unfold file_set. destruct (seqb_spec path (path_of c0)); [subst; contradiction|reflexivity].
  - apply IH. intros c I. apply N. apply in_or_app. now right.
Qed.
Lemma talk_grows f L o g K : Talk f L o g K -> incl L K.
Proof.
  induction 1 as [f L|f L e o g K D T IH|f L p a pth parser o g K GF SP N1 N2 FP T IH|f L c0 ns r w reqs said said' o g K LD FW LW T IH|f L p l d os ts o g K GF PL ID HD BL T IH];
    auto using incl_refl. intros x X. apply IH. apply in_or_app. now left.
Qed.
Lemma talk_loaded f L o g K : Talk f L o g K -> forall d, In d K -> In d L \/ from_load E O d o.
Proof.
  assert (MO : forall d o o', incl o o' -> from_load E O d o -> from_load E O d o') by (intros d1 x x' I (c & n & fl & w1 & rq & J & H); exists c, n, fl, w1, rq; auto).
  induction 1 as [f L|f L e o g K D T IH|f L p a pth parser o g K GF SP N1 N2 FP T IH|f L c0 ns r w reqs said said' o g K LD FW LW T IH|f L p l d0 os ts o g K GF PL ID HD BL T IH];
    intros d I; auto.
  - destruct (IH _ I) as [X|X]; [auto|right; eapply MO; [|exact X]; intros y Y; now right].
  - destruct (IH _ I) as [X|X]; [auto|right; eapply MO; [|exact X]; intros y Y; apply in_or_app; now right].
  - destruct (IH _ I) as [X|X].
    + apply in_app_or in X as [X|X]; [auto|]. right. destruct r as [[e|d1]|]; try destruct X as [<-|[]]; try contradiction. exists c0, ns, (f (path_of c0)), w, reqs. split; [now left|exact LD].
    + right. eapply MO; [|exact X]. intros y Y. right. do 3 (apply in_or_app; right). exact Y.
  - destruct (IH _ I) as [X|X]; [auto|right; eapply MO; [|exact X]; intros y Y; apply in_or_app; now right].
Qed.
Lemma reason_more L L' o o' t : incl L L' -> incl o o' -> reason E V O L o t -> reason E V O L' o' t.
Proof.
  intros IL IO [p a path parser A B C D|c ns file r w rq s1 s2 A B C D F|p l d os A B C D F].
  - eapply rs_parser; eauto.
  - eapply rs_load; eauto.
  - eapply rs_check; eauto.
Qed.
Lemma talk_reason f L o g K : Talk f L o g K -> forall t, In (Note t) o -> reason E V O K o t.
Proof.
  induction 1 as [f L|f L e o g K D T IH|f L p a pth parser o g K GF SP N1 N2 FP T IH|f L c0 ns r w reqs said said' o g K LD FW LW T IH|f L p l d0 os ts o g K GF PL ID HD BL T IH];
    intros t I.
  - destruct I.
  - destruct I as [I|I]; [discriminate|]. eapply reason_more; [apply incl_refl| |apply IH, I]. intros y Y. now right.
  - apply in_app_or in I as [I|I].
    + apply in_map_iff in I as (x & [= ->] & I). eapply rs_parser; eauto.
    + eapply reason_more; [apply incl_refl| |apply IH, I]. intros y Y. apply in_or_app. now right.
  - destruct I as [I|I]; [discriminate|].
    assert (LO : In t (said ++ said') -> reason E V O K (Did (ELoad c0) :: map Note said ++ map (fun q => Did (EZip q)) reqs ++ map Note said' ++ o) t)
      by (intros J; eapply rs_load; eauto; now left).
    apply in_app_or in I as [I|I]; [apply LO, in_or_app; left; apply in_map_iff in I as (x & [= ->] & I); exact I|].
    apply in_app_or in I as [I|I]; [apply in_map_iff in I as (x & I & _); discriminate|].
    apply in_app_or in I as [I|I]; [apply LO, in_or_app; right; apply in_map_iff in I as (x & [= ->] & I); exact I|].
    eapply reason_more; [apply incl_refl| |apply IH, I]. intros y Y. right. do 3 (apply in_or_app; right). exact Y.
  - apply in_app_or in I as [I|I].
    + apply in_map_iff in I as (x & [= ->] & I). eapply Forall_forall in BL; [|exact I]. eapply rs_check; eauto. eapply talk_grows; eauto.
    + eapply reason_more; [apply incl_refl| |apply IH, I]. intros y Y. apply in_or_app. now right.
Qed.
End Words.
