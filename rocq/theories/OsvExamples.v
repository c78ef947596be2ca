(** Concrete advisories and packages used by the examples beside the theorems. *)
From Verif Require Import GoStr Types OsvSpec MemDBSpec SemNum.

(** introduced 0, fixed 1.2, introduced 2.0, last affected 2.5, listed out of order *)
Definition ex_events : list Event :=
  [mkEv "2.0" "" ""; mkEv "" "1.2" ""; mkEv "0" "" ""; mkEv "" "" "2.5"].
Definition ex_range : Range := mkRange "SEMVER" ex_events.
Definition ex_git : Range := mkRange "GIT" [mkEv "0" "" ""].
Definition ex_osv : OSV :=
  mkOSV "GHSA-1" ["CVE-1"] "" "" "" None "some details"
    [mkAff (mkOPkg "lib" "npm") ["3.0"] [ex_range];
     mkAff (mkOPkg "lib" "npm") [] [ex_range]].
Definition ex_alias : OSV :=
  mkOSV "OSV-2" ["CVE-1"; "CVE-9"] "" "" "" None "" [mkAff (mkOPkg "lib" "npm") ["1.0"] []].
Definition ex_withdrawn : OSV :=
  mkOSV "OSV-3" [] "" "" "" (Some "2020-01-01T00:00:00Z") "" [mkAff (mkOPkg "lib" "npm") ["1.0"] []].
Definition ex_pypi : OSV :=
  mkOSV "PYSEC-1" [] "py" "" "" None "" [mkAff (mkOPkg "My_.Lib" "PyPI") ["1.0"] []].
Definition ex_pkg (v : string) : Pkg := mkPkg "lib" v "" "npm" "npm".
Definition ex_all : list OSV := [ex_osv; ex_alias; ex_withdrawn; ex_pypi].

Lemma ex_wf_events : wf_events (sem_cmp num_sem "npm") ex_events.
Proof.
  constructor.
  - apply Forall_forall. intros e He. cbn in He.
    destruct He as [<-|[<-|[<-|[<-|[]]]]]; split; cbn; auto.
  - unfold one_zero. cbn. lia.
  - intros i x [Hi (e & He & Ei)] H0 H. unfold ex_events in *.
    assert (Hx : x = "1.2" \/ x = "2.5").
    { destruct H as [[Nx (f & Hf & Ef)]|[Nx (f & Hf & Ef)]];
      cbn in Hf; destruct Hf as [<-|[<-|[<-|[<-|[]]]]]; cbn in Ef; subst x; auto; now elim Nx. }
    assert (Hi' : i = "2.0").
    { cbn in He. destruct He as [<-|[<-|[<-|[<-|[]]]]]; cbn in Ei; subst i; auto; exfalso; auto. }
    rewrite Hi'. destruct Hx as [-> | ->]; intros C; vm_compute in C; discriminate C.
Qed.

Lemma ex_parseable : parseable num_sem "npm" ex_events.
Proof.
  intros e v He Hv. cbn in He.
  destruct He as [<-|[<-|[<-|[<-|[]]]]]; cbn in Hv; destruct Hv as [[<-|[]]|[E _]]; try discriminate; reflexivity.
Qed.

Lemma ex_wf_range : wf_range num_sem "npm" ex_range.
Proof. split; [exact ex_wf_events|exact ex_parseable]. Qed.

Lemma ex_wf_all : Forall (wf_osv num_sem "npm") ex_all.
Proof.
  apply Forall_forall. intros o Ho a r Ha Hr.
  cbn in Ho. destruct Ho as [<-|[<-|[<-|[<-|[]]]]]; cbn in Ha.
  - destruct Ha as [<-|[<-|[]]]; cbn in Hr; destruct Hr as [<-|[]]; exact ex_wf_range.
  - destruct Ha as [<-|[]]; destruct Hr.
  - destruct Ha as [<-|[]]; destruct Hr.
  - destruct Ha as [<-|[]]; destruct Hr.
Qed.

Lemma ex_checkable v : num_ok v = true -> checkable num_sem ex_all (ex_pkg v).
Proof. intros H. constructor; [apply num_order|exact H|exact ex_wf_all]. Qed.
