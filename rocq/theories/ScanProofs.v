(** Lines of a text. *)
From Verif Require Import GoStr GoStrFacts Types Scan.

Definition nl : string := String "010" "".
Definition crlf : string := String "013" nl.
(** lines written with either line ending; [last]: without one *)
Fixpoint text_of (ls : list (string * bool)) (last : string) : string :=
  match ls with [] => last | (l, cr) :: ls' => l +s+ (if cr then crlf else nl) +s+ text_of ls' last end.
(** no newline, not ending with a carriage return, less than 64 kB with one *)
Definition line_ok (l : string) : Prop := has_char "010" l = false /\ (forall q, l <> q +s+ String "013" "") /\ (str_len l + 1 < max_token)%N.
Lemma str_len_app a b : str_len (a +s+ b) = (str_len a + str_len b)%N.
Proof. induction a as [|c a IH]; cbn; [reflexivity|]. rewrite IH. lia. Qed.
Lemma drop_cr_plain l : (forall q, l <> q +s+ String "013" "") -> drop_cr l = l.
Proof. intros H. unfold drop_cr. destruct (strip_suffix _ l) as [t|] eqn:E; [|reflexivity]. apply strip_suffix_some in E. now apply H in E. Qed.
Lemma drop_cr_cr l : drop_cr (l +s+ String "013" "") = l.
Proof. unfold drop_cr. now rewrite strip_suffix_app. Qed.
Lemma split_nl a b : has_char "010" a = false -> split_char "010" (a +s+ nl +s+ b) = a :: split_char "010" b.
Proof. intros H. apply split_char_app; exact H. Qed.
Lemma scan_split l t : has_char "010" l = false -> (str_len l < max_token)%N ->
  scan (l +s+ nl +s+ t) = let '(ts, e) := scan t in (drop_cr l :: ts, e).
Proof.
  intros H L. unfold scan. rewrite split_nl by exact H. destruct (split_char_cons "010" t) as (h & r & E). rewrite E.
  change (but_last (l :: h :: r)) with (l :: but_last (h :: r)). cbn [scan_tokens]. apply N.leb_gt in L. now rewrite L.
Qed.
Lemma scan_text ls last : Forall (fun x => line_ok (fst x)) ls -> last = "" \/ line_ok last ->
  scan (text_of ls last) = (map fst ls ++ (if seqb last "" then [] else [last]), false).
Proof.
  intros F L. induction F as [|[l cr] ls (H & C & S) F IH]; cbn [text_of map fst app].
  - destruct L as [->|(H & C & S)]; [reflexivity|]. unfold scan. rewrite split_char_nochar by exact H. cbn [but_last].
    destruct (seqb last ""); [reflexivity|]. cbn [scan_tokens]. assert (N.leb max_token (str_len last) = false) as -> by (apply N.leb_gt; lia). now rewrite drop_cr_plain.
  - cbn in H, C, S. destruct cr.
    + unfold crlf. replace (l +s+ String "013" nl +s+ text_of ls last) with ((l +s+ String "013" "") +s+ nl +s+ text_of ls last) by now rewrite sapp_assoc.
      rewrite scan_split, IH, drop_cr_cr; [reflexivity| |rewrite str_len_app; cbn; lia]. rewrite has_char_app, H. reflexivity.
    + rewrite scan_split, IH, drop_cr_plain; [reflexivity|auto|auto|lia].
Qed.
(** a line of 64 kB stops the scanner *)
Lemma scan_long content : snd (scan content) = false <-> Forall (fun l => (str_len l < max_token)%N) (split_char "010" content).
Proof.
  unfold scan. generalize (split_char "010" content). intros l.
  assert (A : snd (scan_tokens (but_last l)) = false <-> Forall (fun l => (str_len l < max_token)%N) (but_last l)).
  { generalize (but_last l). clear. intros l. induction l as [|x l IH]; cbn; [split; [constructor|reflexivity]|].
    destruct (N.leb_spec max_token (str_len x)) as [L|L].
    - cbn. split; [discriminate|]. intros F. inversion F; subst. lia.
    - destruct (scan_tokens l). cbn in *. rewrite IH. split; [now constructor|]. intros F. now inversion F. }
  rewrite A. clear A. induction l as [|x l IH]; [reflexivity|]. cbn. destruct l as [|y l].
  - destruct (seqb_spec x "") as [->|]; [|reflexivity]. split; [intros _; repeat constructor|constructor].
  - change (but_last (x :: y :: l)) with (x :: but_last (y :: l)). rewrite !Forall_cons_iff. now rewrite IH, Forall_cons_iff.
Qed.
