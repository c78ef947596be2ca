From Coq Require Import Lia.
From Verif Require Import GoStr GoStrFacts GoSort Types Path Lockfile LockfileSpec Main MainSpec MainTrace DiscoverProofs Windows WindowsSpec.

Lemma known_distinct a : known_as a -> distinct a.
Proof.
  assert (D : forall l, forallb (fun a => negb (has_char ":" a) && negb (Nat.eqb (String.length a) 1) && match a with String c _ => negb (Ascii.eqb c "/") && negb (Ascii.eqb c "\") | "" => true end) l = true -> Forall distinct l).
  { intros l H. apply Forall_forall. intros x I. apply (proj1 (forallb_forall _ _) H) in I. apply andb_true_iff in I as [I I3]. apply andb_true_iff in I as [I1 I2].
    split; [now apply negb_true_iff in I1|]. split; [now apply negb_true_iff, Nat.eqb_neq in I2|]. intros sl rest [-> | ->] ->; cbn in I3; discriminate. }
  assert (K : Forall distinct ("" :: "csv-file" :: "csv-row" :: supported)) by (apply D; vm_compute; reflexivity).
  intros H. apply (proj1 (Forall_forall _ _) K). destruct H as [->|[->|[->|H]]]; cbn [In]; auto.
Qed.
Lemma split_means_on w abs arg a p : means_on w abs arg a p -> split_on w abs arg = (a, p).
Proof.
  intros [(-> & H & -> & ->)|(H & M)]; unfold split_on; [now rewrite H|]. apply split_means in M.
  destruct H as [->|H]; [exact M|]. rewrite H, andb_false_r. exact M.
Qed.
Lemma split_back w abs a p : AbsOk abs -> distinct a -> (a = "" -> no_colon p) -> split_on w abs (a +s+ ":" +s+ p) = (a, p).
Proof.
  intros A (D1 & D2 & D3) NC. apply split_means_on. right. split; [|right; auto]. right. destruct (abs (a +s+ ":" +s+ p)) eqn:X; [|reflexivity].
  apply (abs_only _ A) in X as [(c & rest & X)|(sl & rest & S & X)]; exfalso.
  - destruct a as [|c1 [|c2 a]].
    + cbn in X. injection X as _ X. exact (NC eq_refl rest X).
    + cbn in D2. lia.
    + cbn [String.append] in X. injection X as _ X _. rewrite X in D1. cbn in D1. rewrite orb_true_r in D1. discriminate.
  - destruct a as [|c1 a]; cbn [String.append] in X; injection X as X _; subst sl; [destruct S; discriminate|]. exact (D3 c1 a S eq_refl).
Qed.
Lemma reads_listed w abs clean find global : AbsOk abs -> distinct global -> global <> "csv-row" -> forall args l, reads_on w abs clean find global args l ->
  read_on w abs (list_on w abs clean find global args) = l.
Proof.
  intros A G N. unfold list_on, parse_as_csv_row. rewrite (proj2 (seqb_neq _ _) N). induction 1 as [|arg args parser path pa rest M P D NC R IH]; [reflexivity|].
  cbn [flat_map]. rewrite (split_means_on _ _ _ _ _ M). rewrite <- P. unfold read_on in *. rewrite map_app, IH. f_equal. rewrite map_map. apply map_ext_in. intros q I.
  apply split_back; [exact A| |intros _; exact (NC q I)]. subst pa. destruct (seqb_spec parser "") as [->|Q]; [exact G|]. now destruct D.
Qed.
Lemma drive_path abs c sl rest : AbsOk abs -> letter c -> slash sl -> split_on true abs (String c (String ":" (String sl rest))) = ("", String c (String ":" (String sl rest))).
Proof. intros A L S. unfold split_on. now rewrite (abs_drive _ A _ _ _ L S). Qed.
Lemma find_all_is E O abs s : exists e s', find_all_lockfiles E O s = (Ok (list_on false abs clean (found_in E) (o_parse_as O) (o_args O), e), s').
Proof.
  unfold find_all_lockfiles, list_on. destruct (seqb (o_parse_as O) parse_as_csv_row); [exists false, s; reflexivity|].
  revert s. induction (o_args O) as [|arg args IH]; intros s; cbn [find_all_loop flat_map]; [exists false, s; reflexivity|].
  unfold split_on at 1. cbn [andb]. destruct (split_parse_as arg) as [a path]. cbv zeta. set (pa := if seqb a "" then o_parse_as O else a).
  assert (F : exists e s', find_lockfiles E path pa s = (Ok (found_in E path pa, e), s')).
  { unfold find_lockfiles, found_in. destruct (e_stat E path); eexists _, _; reflexivity. }
  destruct F as (e & s1 & F). destruct (IH s1) as (e2 & s2 & G). exists (e || e2)%bool, s2. unfold bind at 1. rewrite F. unfold bind at 1. rewrite G. reflexivity.
Qed.
