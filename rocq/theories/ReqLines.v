(** Lines of requirements files: continuations, comments, constraints. *)
From Verif Require Import GoStr GoStrFacts Types Regex RegexFacts Osv OsvSpec OsvProofs Scan Requirements RequirementsSpec.

(** ** matching *)
Lemma re_match_iff r s : re_match r s = true <->
  exists u v, s = u +s+ v /\ ms r (mkst (match u with EmptyString => true | _ => false end) v []) <> [].
Proof.
  unfold re_match. destruct (find r s) as [m|] eqn:F; unfold find in F.
  - split; [intros _|reflexivity]. pose proof F as F'. apply find_at_some in F' as (s' & l & H & _).
    exists (m_before m), (m_text m +s+ m_after m). split; [|rewrite H; discriminate].
    revert F. clear. revert m. generalize true. induction s as [|c s IH]; intros b m F; cbn [find_at] in F.
    + destruct (ms r (mkst b "" [])) as [|x xs] eqn:M; [discriminate|]. injection F as <-. cbn.
      assert (In x (ms r (mkst b "" []))) as I by (rewrite M; now left). apply ms_suffix in I as (c & C). cbn in C.
      destruct c; [|discriminate]. cbn in C. rewrite <- C. reflexivity.
    + destruct (ms r (mkst b (String c s) [])) as [|x xs] eqn:M.
      * destruct (find_at false r s) as [m'|] eqn:F'; [|discriminate]. injection F as <-. cbn. f_equal. now apply (IH false).
      * injection F as <-. cbn [m_before m_text m_after]. assert (In x (ms r (mkst b (String c s) []))) as I by (rewrite M; now left).
        apply ms_suffix in I as (d & D). cbn [st_rest] in D. rewrite D at 2. rewrite consumed_app. rewrite <- D. reflexivity.
  - split; [discriminate|]. intros (u & v & -> & H). exfalso. apply H. eapply find_at_none; eauto.
Qed.
Lemma flat_map_ne {A B} (f : A -> list B) l : flat_map f l <> [] <-> exists x, In x l /\ f x <> [].
Proof.
  induction l as [|a l IH]; cbn; [split; [congruence|intros (x & [] & _)]|]. split.
  - destruct (f a) as [|b bs] eqn:F; [intros H; apply IH in H as (x & X & Y); eauto|]. intros _. exists a. split; [now left|]. now rewrite F.
  - intros (x & [<-|X] & Y) Q; apply app_eq_nil in Q as [Q1 Q2]; [contradiction|]. apply IH in Q2; [exact Q2|eauto].
Qed.

(** ** continuations *)
Lemma slashes_app a b : slashes (a + b) = slashes a +s+ slashes b.
Proof. induction a as [|a IH]; cbn; [reflexivity|]. now rewrite IH. Qed.
Lemma slashes_snoc n : slashes (S n) = slashes n +s+ "\".
Proof. replace (S n) with (n + 1) by lia. now rewrite slashes_app. Qed.
Lemma ms_pair b v cs : ms (Sq Bs Bs) (mkst b v cs) = match strip_prefix "\\" v with Some t => [mkst false t cs] | None => [] end.
Proof. exact (ms_lit "\\" b v cs). Qed.
Lemma star_pair_in n : forall b v cs x, In x (star true (ms (Sq Bs Bs)) n (mkst b v cs)) -> exists k, v = slashes (2 * k) +s+ st_rest x /\ st_caps x = cs.
Proof.
  induction n as [|n IH]; intros b v cs x H; cbn [star] in H.
  - destruct H as [<-|[]]. exists 0. auto.
  - apply in_app_or in H as [H|[<-|[]]]; [|exists 0; auto]. apply in_flat_map in H as (y & Y & H). apply filter_In in Y as [Y _].
    rewrite ms_pair in Y. destruct (strip_prefix "\\" v) as [t|] eqn:P; [|destruct Y]. destruct Y as [<-|[]]. apply strip_prefix_some in P.
    apply IH in H as (k & -> & C). exists (S k). split; [|exact C]. rewrite P. replace (2 * S k) with (2 + 2 * k) by lia. rewrite slashes_app. cbn. reflexivity.
Qed.
Lemma star_pair_ex n : forall k b t cs, 2 * k + String.length t <= n -> exists b', In (mkst b' t cs) (star true (ms (Sq Bs Bs)) n (mkst b (slashes (2 * k) +s+ t) cs)).
Proof.
  induction n as [|n IH]; intros k b t cs H; cbn [star].
  - assert (k = 0) as -> by lia. exists b. now left.
  - destruct k as [|k]; [exists b; apply in_or_app; right; now left|].
    destruct (IH k false t cs ltac:(lia)) as (b' & I). exists b'. apply in_or_app. left. apply in_flat_map. exists (mkst false (slashes (2 * k) +s+ t) cs).
    split; [|exact I]. apply filter_In. replace (2 * S k) with (2 + 2 * k) by lia. rewrite slashes_app. split.
    + rewrite ms_pair. cbn. now left.
    + unfold shorter. cbn [st_rest]. apply Nat.ltb_lt. cbn. lia.
Qed.
Lemma slen_slashes n : String.length (slashes n) = n. Proof. induction n; cbn; auto. Qed.
Lemma tail_slashes b v cs : ms (Sq (Star true (Sq Bs Bs)) (Sq Bs Eol)) (mkst b v cs) <> [] <-> exists n, v = slashes (2 * n + 1).
Proof.
  cbn [ms]. rewrite flat_map_ne. split.
  - intros (x & X & H). apply star_pair_in in X as (k & E & _). cbn [ms] in H. apply flat_map_ne in H as (y & Y & H).
    destruct x as [xb xr xc]. cbn [st_rest] in E. destruct xr as [|c r]; cbn in Y; [contradiction|].
    match type of Y with In _ (if ?q then _ else _) => destruct q eqn:Q end; cbn in Y; [|contradiction].
    assert (c = "\"%char) as -> by (revert Q; clear; destruct c as [[] [] [] [] [] [] [] []]; cbv; congruence).
    destruct Y as [<-|[]]. cbn in H. destruct r; [|congruence]. exists k. rewrite E. now rewrite slashes_app.
  - intros (n & ->). rewrite slashes_app. destruct (star_pair_ex (String.length (slashes (2 * n) +s+ slashes 1)) n b "\" cs) as (b' & I).
    { rewrite slen_app, slen_slashes. cbn. lia. }
    eexists. split; [exact I|]. cbn. discriminate.
Qed.
Lemma str_last s : s = "" \/ exists q c, s = q +s+ String c "".
Proof. induction s as [|c s [->|(q & d & ->)]]; [now left| |]; right; [exists "", c|exists (String c q), d]; reflexivity. Qed.
Lemma snoc_inj p q c d : p +s+ String c "" = q +s+ String d "" -> p = q /\ c = d.
Proof.
  intros E. apply sapp_inj_len in E as [-> E].
  - injection E as ->. auto.
  - apply (f_equal String.length) in E. rewrite !slen_app in E. cbn in E. lia.
Qed.
Lemma ends_plain_nil : ends_plain "". Proof. intros [|c q]; discriminate. Qed.
Lemma ends_plain_snoc p c : c <> "\"%char -> ends_plain (p +s+ String c "").
Proof. intros N q E. apply snoc_inj in E as [_ E]. contradiction. Qed.
Lemma continuation_iff line : is_line_continuation line = true <-> continued line.
Proof.
  unfold is_line_continuation. rewrite re_match_iff. unfold re_continuation, continued. cbn [Seqs]. split.
  - intros (u & v & -> & H). cbn [ms] in H. apply flat_map_ne in H as (x & X & H). apply in_app_or in X as [X|X].
    + destruct v as [|c t]; [destruct X|]. cbn in X. destruct (Ascii.eqb_spec c "\") as [|N]; [destruct X|]. cbn in X. destruct X as [<-|[]].
      apply (tail_slashes _ t) in H as (n & ->). exists (u +s+ String c ""), n. split; [now rewrite sapp_assoc|]. now apply ends_plain_snoc.
    + cbn in X. destruct u as [|c u]; [|destruct X]. destruct X as [<-|[]]. apply (tail_slashes _ v) in H as (n & ->). exists "", n. split; [reflexivity|apply ends_plain_nil].
  - intros (p & n & -> & E). destruct (str_last p) as [->|(q & c & ->)].
    + exists "", (slashes (2 * n + 1)). split; [reflexivity|]. cbn [ms]. rewrite flat_map_ne. exists (mkst true (slashes (2 * n + 1)) []).
      split; [apply in_or_app; right; now left|]. apply (tail_slashes true). eauto.
    + exists q, (String c (slashes (2 * n + 1))). split; [now rewrite sapp_assoc|]. cbn [ms]. rewrite flat_map_ne.
      exists (mkst false (slashes (2 * n + 1)) []). split; [|apply (tail_slashes false); eauto]. apply in_or_app. left. cbn.
      destruct (Ascii.eqb_spec c "\") as [->|]; [|now left]. exfalso. now apply (E q).
Qed.
Lemma continued_snoc t : continued t -> exists p, t = p +s+ "\".
Proof. intros (q & n & -> & _). exists (q +s+ slashes (2 * n)). rewrite Nat.add_1_r, slashes_snoc. now rewrite sapp_assoc. Qed.
Lemma trim_slash p : trim_suffix (p +s+ "\") "\" = p. Proof. apply trim_suffix_app. Qed.
Lemma slashes_inj p q n : forall m, ends_plain p -> ends_plain q -> p +s+ slashes n = q +s+ slashes m -> n = m.
Proof.
  induction n as [|n IH]; intros [|m] P Q E; [reflexivity| | |].
  - rewrite slashes_snoc, <- sapp_assoc in E. cbn in E. rewrite sapp_nil_r in E. now apply P in E.
  - rewrite slashes_snoc, <- sapp_assoc in E. cbn in E. rewrite sapp_nil_r in E. symmetry in E. now apply Q in E.
  - rewrite !slashes_snoc, <- !sapp_assoc in E. apply snoc_inj in E as [E _]. f_equal. now apply IH.
Qed.
Lemma continued_once p : continued (p +s+ "\") -> ~ continued p.
Proof.
  intros (q & n & E & Q) (r & m & -> & R). rewrite sapp_assoc, <- slashes_snoc in E. apply slashes_inj in E; auto. lia.
Qed.
Lemma cont_false line : is_line_continuation line = false <-> ~ continued line.
Proof. rewrite <- continuation_iff. destruct (is_line_continuation line); split; congruence. Qed.
Lemma logical_joined ts : forall t, joined (t :: ts) (logical_from t ts).
Proof.
  induction ts as [|u ts IH]; intros t; cbn [logical_from]; destruct (is_line_continuation t) eqn:C.
  - apply continuation_iff in C. destruct (continued_snoc _ C) as (p & ->). rewrite trim_slash.
    replace (strip_conts (String.length p) p) with p; [now constructor|].
    assert (is_line_continuation p = false) as F by (apply cont_false; now apply continued_once). destruct (String.length p); cbn [strip_conts]; [reflexivity|now rewrite F].
  - apply cont_false in C. constructor; [exact C|constructor].
  - apply continuation_iff in C. destruct (continued_snoc _ C) as (p & ->). rewrite trim_slash. constructor; [exact C|apply IH].
  - apply cont_false in C. constructor; [exact C|apply IH].
Qed.
Lemma joined_logical ts ls : joined ts ls <-> ls = logical ts.
Proof.
  split.
  - induction 1 as [|t ts ls N J IH|p t ts ls C J IH|p C]; cbn [logical logical_from]; [reflexivity| | |].
    + apply cont_false in N. destruct ts as [|u ts]; cbn [logical_from]; rewrite N; [now rewrite IH|now rewrite IH].
    + pose proof (proj2 (continuation_iff _) C) as ->. rewrite trim_slash. exact IH.
    + pose proof (proj2 (continuation_iff _) C) as ->. rewrite trim_slash.
      assert (is_line_continuation p = false) as F by (apply cont_false; now apply continued_once). destruct (String.length p); cbn [strip_conts]; [reflexivity|now rewrite F].
  - intros ->. destruct ts; [constructor|apply logical_joined].
Qed.

(** ** comments *)
Definition nl_free (s : string) : Prop := str_forall (fun c => negb (Ascii.eqb c "010")) s = true.
Lemma re_space_space1 c : is_re_space c = true -> is_space1 c = true.
Proof. destruct c as [[] [] [] [] [] [] [] []]; cbv; congruence. Qed.
Lemma space1_ascii c : is_space1 c = true -> N.ltb (N_of_ascii c) 128 = true.
Proof. destruct c as [[] [] [] [] [] [] [] []]; cbv; congruence. Qed.
Lemma trim_left_tail n : forall a w, String.length a <= n -> str_forall is_space1 w = true ->
  trim_left (a +s+ w) = trim_left a +s+ w \/ (trim_left a = "" /\ trim_left (a +s+ w) = "").
Proof.
  induction n as [|n IH]; intros a w L W.
  - destruct a; [|cbn in L; lia]. right. split; [reflexivity|now apply trim_left_all].
  - destruct a as [|x a]; [right; split; [reflexivity|now apply trim_left_all]|]. cbn in L.
    assert (W1 : forall c t, w = String c t -> N.ltb (N_of_ascii c) 128 = true).
    { intros c t ->. cbn in W. apply andb_true_iff in W as [W _]. now apply space1_ascii. }
    cbn [append trim_left]. destruct (is_space1 x); [apply IH; [lia|auto]|].
    destruct a as [|y a]; cbn [append].
    + left. destruct w as [|c [|d w]]; [reflexivity| |]; rewrite is_space2_ascii_r by eauto; [reflexivity|].
      cbn in W. apply andb_true_iff in W as [_ W]. apply andb_true_iff in W as [W _]. now rewrite is_space3_ascii_r by now apply space1_ascii.
    + destruct (is_space2 x y); [apply IH; [cbn in L; lia|auto]|]. destruct a as [|z a]; cbn [append].
      * left. destruct w as [|c w]; [reflexivity|]. now rewrite is_space3_ascii_r by eauto.
      * destruct (is_space3 x y z); [apply IH; [cbn in L; lia|auto]|]. now left.
Qed.
Lemma trim_space_tail a w : str_forall is_space1 w = true -> trim_space (a +s+ w) = trim_space a.
Proof.
  intros W. unfold trim_space, trim_right. destruct (trim_left_tail _ a w (le_n _) W) as [->|[-> ->]]; [|reflexivity].
  rewrite str_rev_append. rewrite trim_left_rev_spaces by now rewrite str_forall_rev. reflexivity.
Qed.
Lemma runs_in_nil s : str_forall is_dot s = true -> In "" (runs is_dot s).
Proof. induction s as [|c s IH]; cbn; [now left|]. intros H. apply andb_true_iff in H as [-> H]. apply in_or_app. left. auto. Qed.
Lemma nl_free_dot s : nl_free s -> str_forall is_dot s = true.
Proof. apply str_forall_impl. intros c. destruct c as [[] [] [] [] [] [] [] []]; cbv; congruence. Qed.
Lemma chr_ms c b v cs : ms (Chr c) (mkst b v cs) = match v with String d t => if Ascii.eqb c d then [mkst false t cs] else [] | "" => [] end.
Proof. destruct v; reflexivity. Qed.
Definition comment_tail : re := Seqs [Chr "#"; Star true Dot; Eol].
Lemma comment_tail_ne b v cs : nl_free v -> (ms comment_tail (mkst b v cs) <> [] <-> exists t, v = String "#" t).
Proof.
  intros F. unfold comment_tail. cbn [Seqs]. change (ms (Sq (Chr "#") ?r) ?s) with (flat_map (ms r) (ms (Chr "#") s)). rewrite chr_ms.
  destruct v as [|c t]; [cbn; split; [congruence|intros (t & H); discriminate]|].
  destruct (Ascii.eqb_spec "#" c) as [<-|N]; [|cbn; split; [congruence|intros (u & H); congruence]].
  split; [eauto|intros _]. apply flat_map_ne. eexists. split; [now left|]. apply flat_map_ne. change (nl_free (String "#" t)) with (nl_free t) in F.
  exists (at_rest (mkst false t cs) ""). split; [|cbn; destruct (String.length t); discriminate].
  change (In (at_rest (mkst false t cs) "") (ms (Star true (Cls is_dot)) (mkst false t cs))). rewrite ms_star_cls_g. apply in_map. cbn [st_rest]. apply runs_in_nil. now apply nl_free_dot.
Qed.
Lemma comment_rest s x : In x (ms re_comment s) -> st_rest x = "".
Proof.
  unfold re_comment. cbn [Seqs ms]. intros H. apply in_flat_map in H as (y & _ & H). apply in_flat_map in H as (z & _ & H).
  apply in_flat_map in H as (u & _ & H). destruct (st_rest u) eqn:R; [destruct H as [<-|[]]; exact R|destruct H].
Qed.
Definition comment_at (bot : bool) (v : string) : Prop :=
  (bot = true /\ exists t, v = String "#" t) \/ exists w t, w <> "" /\ str_forall is_re_space w = true /\ v = w +s+ String "#" t.
Lemma runs_iff p s r : In r (runs p s) <-> exists w, str_forall p w = true /\ s = w +s+ r.
Proof.
  revert r. induction s as [|c s IH]; intros r; cbn.
  - split; [intros [<-|[]]; exists ""; auto|]. intros (w & _ & E). symmetry in E. apply sapp_nil_inv in E as [_ ->]. now left.
  - destruct (p c) eqn:P.
    + rewrite in_app_iff, IH. cbn. split.
      * intros [(w & F & ->)|[<-|[]]]; [exists (String c w); cbn; rewrite P; auto|exists ""; auto].
      * intros ([|d w] & F & E); cbn in *; [auto|]. injection E as <- ->. apply andb_true_iff in F as [_ F]. left. eauto.
    + split; [intros [<-|[]]; exists ""; auto|]. intros ([|d w] & F & E); cbn in *; [auto|]. injection E as <- ->. rewrite P in F. discriminate.
Qed.
Lemma nl_free_app a b : nl_free (a +s+ b) <-> nl_free a /\ nl_free b.
Proof. unfold nl_free. rewrite str_forall_app. apply andb_true_iff. Qed.
Lemma comment_iff bot v : nl_free v -> (ms re_comment (mkst bot v []) <> [] <-> comment_at bot v).
Proof.
  intros F. unfold re_comment. change (Seqs [?a; Chr "#"; Star true Dot; Eol]) with (Sq a comment_tail). 
  change (ms (Sq ?a ?r) ?s) with (flat_map (ms r) (ms a s)). rewrite flat_map_ne. unfold comment_at.
  change (ms (Alt Bol ?a) ?s) with (ms Bol s ++ ms a s). rewrite ms_plus_cls_g. split.
  - intros (x & X & H). apply in_app_or in X as [X|X].
    + cbn in X. destruct bot; [|destruct X]. destruct X as [<-|[]]. left. split; [reflexivity|]. now apply comment_tail_ne in H.
    + destruct v as [|c v]; [destruct X|]. destruct (is_re_space c) eqn:C; [|destruct X]. apply in_map_iff in X as (r & <- & X).
      apply runs_iff in X as (w & W & ->). change (String c (w +s+ r)) with (String c w +s+ r) in F. apply nl_free_app in F as [_ F].
      apply comment_tail_ne in H as (t & ->); [|exact F]. right. exists (String c w), t. split; [discriminate|]. cbn. now rewrite C.
  - intros [[-> (t & ->)]|(w & t & N & W & ->)].
    + exists (mkst true (String "#" t) []). split; [apply in_or_app; left; now left|]. apply comment_tail_ne; eauto.
    + destruct w as [|c w]; [congruence|]. cbn in W. apply andb_true_iff in W as [C W]. apply nl_free_app in F as [_ F].
      exists (mkst false (String "#" t) []). split; [|apply comment_tail_ne; eauto]. apply in_or_app. right. cbn [append]. rewrite C.
      apply in_map_iff. eexists. split; [reflexivity|]. apply runs_iff. eauto.
Qed.
Lemma before_spaces w : forall b t, w <> "" -> str_forall is_re_space w = true -> before_comment b (w +s+ String "#" t) = w.
Proof.
  induction w as [|c w IH]; intros b t N W; [congruence|]. cbn in W. apply andb_true_iff in W as [C W]. cbn [append before_comment].
  assert (Ascii.eqb c "#" = false) as E by (destruct (Ascii.eqb_spec c "#"); [subst; discriminate|reflexivity]). rewrite E, andb_false_r, C. f_equal.
  destruct w as [|d w]; [reflexivity|]. apply IH; [discriminate|exact W].
Qed.
Lemma before_plain b s : (forall t, s <> String "#" t) -> before_comment b s = before_comment false s.
Proof. destruct s as [|c s]; [reflexivity|]. intros H. cbn. destruct (Ascii.eqb_spec c "#") as [->|]; [now destruct (H s)|now rewrite andb_false_r]. Qed.
Lemma find_comment s : forall bot, nl_free s ->
  match find_at bot re_comment s with
  | Some m => m_after m = "" /\ exists w, str_forall is_re_space w = true /\ before_comment bot s = m_before m +s+ w
  | None => before_comment bot s = s
  end.
Proof.
  induction s as [|c s IH]; intros bot F.
  - cbn [find_at]. destruct (ms re_comment (mkst bot "" [])) as [|x l] eqn:M; [reflexivity|].
    assert (comment_at bot "") as [[_ (t & H)]|(w & t & _ & _ & H)] by (apply comment_iff; [reflexivity|rewrite M; discriminate]); [discriminate|].
    symmetry in H. apply sapp_nil_inv in H as [_ H]. discriminate.
  - destruct (ms re_comment (mkst bot (String c s) [])) as [|x l] eqn:M.
    + rewrite find_at_skip by exact M.
      assert (N : ~ comment_at bot (String c s)) by (intros H; apply comment_iff in H; [now rewrite M in H|exact F]).
      assert (FS : nl_free s) by (unfold nl_free in *; cbn in F; now apply andb_true_iff in F as [_ F]). specialize (IH false FS).
      assert (B : before_comment bot (String c s) = String c (before_comment false s)).
      { cbn [before_comment]. destruct (bot && Ascii.eqb c "#") eqn:E.
        - exfalso. apply andb_true_iff in E as [-> E]. apply Ascii.eqb_eq in E as ->. apply N. left. eauto.
        - f_equal. destruct (is_re_space c) eqn:C; [|reflexivity]. apply before_plain. intros t ->. apply N. right. exists (String c ""), t.
          split; [discriminate|]. cbn. now rewrite C. }
      destruct (find_at false re_comment s) as [m|].
      * destruct IH as (A & w & W & E). cbn [m_after m_before]. split; [exact A|]. exists w. split; [exact W|]. rewrite B, E. reflexivity.
      * now rewrite B, IH.
    + rewrite (find_at_here _ _ _ x l M). cbn [m_after m_before]. split; [eapply comment_rest; rewrite M; now left|].
      assert (comment_at bot (String c s)) as H by (apply comment_iff; [exact F|rewrite M; discriminate]).
      destruct H as [[-> (t & H)]|(w & t & N & W & H)].
      * injection H as -> ->. exists "". auto.
      * exists w. split; [exact W|]. rewrite H. now apply before_spaces.
Qed.
Lemma remove_comments_eq line : nl_free line -> remove_comments line = line_text line.
Proof.
  intros F. unfold remove_comments, line_text, replace_all. cbn [replace_fuel]. pose proof (find_comment line true F) as H.
  destruct (find_at true re_comment line) as [m|]; [|now rewrite H]. destruct H as (A & w & W & ->). rewrite A.
  assert (E : replace_fuel (String.length line) false re_comment "" "" = "") by (destruct (String.length line); reflexivity).
  rewrite E. cbn. rewrite sapp_nil_r. symmetry. apply trim_space_tail. eapply str_forall_impl; [|exact W]. apply re_space_space1.
Qed.

(** ** requirements *)
Lemma upto_cut c s : cut_before s (String c "") = upto c s.
Proof.
  unfold cut_before, cut. induction s as [|d s IH]; cbn [cut_at strip_prefix upto]; [reflexivity|].
  destruct (Ascii.eqb_spec c d); [reflexivity|]. destruct (cut_at (String c "") s) as [[b a]|]; cbn in *; now rewrite <- IH.
Qed.
Lemma upto_collapse c s : pep_sep c = false -> c <> "-"%char -> forall b, upto c (collapse b s) = collapse b (upto c s).
Proof.
  intros P N. induction s as [|d s IH]; intros b; [reflexivity|]. cbn. destruct (Ascii.eqb_spec c d) as [<-|D].
  - rewrite P. cbn. now rewrite Ascii.eqb_refl.
  - cbn [collapse]. destruct (pep_sep d); [destruct b; [apply IH|]|]; cbn; [destruct (Ascii.eqb_spec c "-"); [congruence|]|destruct (Ascii.eqb_spec c d); [congruence|]]; now rewrite IH.
Qed.
Lemma upto_lower s : upto "[" (str_map lower_char s) = str_map lower_char (upto "[" s).
Proof.
  induction s as [|d s IH]; [reflexivity|]. cbn [str_map upto]. replace (Ascii.eqb "[" (lower_char d)) with (Ascii.eqb "[" d).
  - destruct (Ascii.eqb "[" d); [reflexivity|]. cbn. now rewrite IH.
  - clear. destruct d as [[] [] [] [] [] [] [] []]; reflexivity.
Qed.
Lemma requirement_name n : normalized_requirement_name n = pep503 (upto "[" n).
Proof.
  unfold normalized_requirement_name. rewrite replace_all_seps, upto_cut. unfold to_lower. rewrite upto_lower. rewrite (upto_collapse "["); [reflexivity|reflexivity|discriminate].
Qed.
Lemma upto_none c s : has_char c s = false -> upto c s = s.
Proof. induction s as [|d s IH]; cbn; [reflexivity|]. destruct (Ascii.eqb c d); [discriminate|]. intros H. now rewrite IH. Qed.
Lemma requirement_name_same n : has_char "[" n = false -> normalized_requirement_name n = normalized_name (mkOPkg n "PyPI").
Proof. intros H. rewrite requirement_name, upto_none by exact H. change (normalized_name (mkOPkg n "PyPI")) with (to_lower (replace_all re_name_seps "-" n)). now rewrite replace_all_seps. Qed.
Lemma occurs_contains op s : contains s op = true <-> occurs op s. Proof. apply contains_iff. Qed.
Lemma occurs_not op s : contains s op = false <-> ~ occurs op s.
Proof. rewrite <- occurs_contains. destruct (contains s op); split; congruence. Qed.
Lemma first_at_cut op s : contains s op = true -> first_at op s (cut_before s op) (cut_after s op).
Proof. unfold contains, cut_before, cut_after, cut. destruct (cut_at op s) as [[b a]|] eqn:C; [|discriminate]. intros _. exact (cut_at_some _ _ _ _ C). Qed.
Lemma first_at_fun op s a b a' b' : first_at op s a b -> first_at op s a' b' -> a = a' /\ b = b'.
Proof.
  intros [E L] [E' L']. pose proof (L _ _ E'). pose proof (L' _ _ E). rewrite E in E'. apply sapp_inj_len in E' as [-> E']; [|lia].
  apply sapp_inj_l in E'. auto.
Qed.
Lemma parse_line_eq s : parse_line s =
  if contains s "!=" then pypi (trim_space (cut_before s "!=")) "0.0.0"
  else if contains s "~=" then pypi (trim_space (cut_before s "~=")) (upto " " (trim_space (cut_after s "~=")))
  else if contains s ">=" then pypi (trim_space (cut_before s ">=")) (upto " " (trim_space (cut_after s ">=")))
  else if contains s "==" then pypi (trim_space (cut_before s "==")) (upto " " (trim_space (cut_after s "==")))
  else pypi s "0.0.0".
Proof.
  unfold parse_line, pypi. destruct (contains s "!="); [|destruct (contains s "~="); [|destruct (contains s ">="); [|destruct (contains s "==")]]];
    repeat match goal with |- context [negb (seqb ?a ?b)] => let v := eval vm_compute in (negb (seqb a b)) in change (negb (seqb a b)) with v end;
    cbv beta iota zeta; rewrite requirement_name; try rewrite (upto_cut " "); reflexivity.
Qed.
Lemma not_in_nil {A} (P : A -> Prop) : forall x, In x [] -> P x. Proof. intros x []. Qed.
Lemma parse_line_is s : requirement s (parse_line s).
Proof.
  rewrite parse_line_eq. destruct (contains s "!=") eqn:C4; [|destruct (contains s "~=") eqn:C3; [|destruct (contains s ">=") eqn:C2; [|destruct (contains s "==") eqn:C1]]].
  - apply (rq_op s ["=="; ">="; "~="] "!=" [] (cut_before s "!=") (cut_after s "!=") eq_refl); [apply not_in_nil|now apply first_at_cut].
  - apply (rq_op s ["=="; ">="] "~=" ["!="] (cut_before s "~=") (cut_after s "~=") eq_refl); [|now apply first_at_cut]. intros o [<-|[]]. now apply occurs_not.
  - apply (rq_op s ["=="] ">=" ["~="; "!="] (cut_before s ">=") (cut_after s ">=") eq_refl); [|now apply first_at_cut]. intros o [<-|[<-|[]]]; now apply occurs_not.
  - apply (rq_op s [] "==" [">="; "~="; "!="] (cut_before s "==") (cut_after s "==") eq_refl); [|now apply first_at_cut]. intros o [<-|[<-|[<-|[]]]]; now apply occurs_not.
  - apply rq_any. intros op [<-|[<-|[<-|[<-|[]]]]]; now apply occurs_not.
Qed.
Lemma split_late {A} (l1 : list A) x r1 l2 y r2 : l1 ++ x :: r1 = l2 ++ y :: r2 -> (x = y /\ r1 = r2) \/ In x r2 \/ In y r1.
Proof.
  revert l2. induction l1 as [|a l1 IH]; intros [|b l2] E; cbn in E; injection E as -> E.
  - auto.
  - right. right. rewrite E. apply in_or_app. right. now left.
  - right. left. rewrite <- E. apply in_or_app. right. now left.
  - eapply IH; eauto.
Qed.
Lemma requirement_fun s p q : requirement s p -> requirement s q -> p = q.
Proof.
  intros [N|l op l' a b E N F] [N'|m op' m' a' b' E' N' F']; [reflexivity| | |].
  - exfalso. apply (N op'); [rewrite E'; apply in_or_app; right; now left|]. destruct F' as [F' _]. now exists a', b'.
  - exfalso. apply (N' op); [rewrite E; apply in_or_app; right; now left|]. destruct F as [F _]. now exists a, b.
  - rewrite E in E'. apply split_late in E' as [[-> ->]|[I|I]].
    + destruct (first_at_fun _ _ _ _ _ _ F F') as [-> ->]. reflexivity.
    + destruct (N' _ I). destruct F as [F _]. now exists a, b.
    + destruct (N _ I). destruct F' as [F' _]. now exists a', b'.
Qed.
Definition plain (s : string) : Prop := str_forall (fun c => negb (mem (String c "") ["="; ">"; "~"; "!"])) s = true.
Lemma plain_no_op o s : In o ["=="; ">="; "~="; "!="] -> plain s -> contains s o = false.
Proof.
  intros O P. apply contains_false. intros a b ->. unfold plain in P. rewrite !str_forall_app in P. apply andb_true_iff in P as [_ P]. apply andb_true_iff in P as [P _].
  cbn in O. destruct O as [<-|[<-|[<-|[<-|[]]]]]; discriminate.
Qed.
Lemma no_op s : plain s -> parse_line s = pypi s "0.0.0".
Proof. intros P. rewrite parse_line_eq. rewrite !plain_no_op by (cbn; auto). reflexivity. Qed.
(** an operator between two plain parts: it occurs once and no other does *)
Lemma plain_occurs n op v a o b : plain n -> plain v -> In op ["=="; ">="; "~="; "!="] -> In o ["=="; ">="; "~="; "!="] ->
  n +s+ op +s+ v = a +s+ o +s+ b -> a = n /\ o = op.
Proof.
  intros N V OP O. revert a. induction n as [|c n IH]; intros a E.
  - destruct a as [|d a].
    + split; [reflexivity|]. cbn in OP, O. destruct OP as [<-|[<-|[<-|[<-|[]]]]]; destruct O as [<-|[<-|[<-|[<-|[]]]]]; cbn in E; congruence.
    + exfalso. assert (X : exists k, v = k +s+ o +s+ b \/ (exists e, op = String d (String e "") /\ String e v = o +s+ b)).
      { cbn in OP. destruct OP as [<-|[<-|[<-|[<-|[]]]]]; cbn in E; injection E as <- E; destruct a as [|e a]; cbn in E;
          try (exists ""; right; eexists; split; [reflexivity|exact E]); injection E as <- E; exists a; left; exact E. }
      destruct X as (k & [->|(e & -> & X)]).
      * unfold plain in V. rewrite !str_forall_app in V. apply andb_true_iff in V as [_ V]. apply andb_true_iff in V as [V _]. cbn in O. destruct O as [<-|[<-|[<-|[<-|[]]]]]; discriminate.
      * assert (PV : forall c t, v = String c t -> mem (String c "") ["="; ">"; "~"; "!"] = false).
        { intros c t ->. unfold plain in V. cbn [str_forall] in V. apply andb_true_iff in V as [V _]. now apply negb_true_iff in V. }
        cbn in O. destruct O as [<-|[<-|[<-|[<-|[]]]]]; cbn in X; injection X as -> X; apply PV in X; discriminate.
  - destruct a as [|d a]; cbn in E.
    + exfalso. unfold plain in N. cbn [str_forall] in N. apply andb_true_iff in N as [N _]. cbn in O. destruct O as [<-|[<-|[<-|[<-|[]]]]]; cbn in E; injection E as -> E; discriminate.
    + injection E as <- E. unfold plain in N. cbn [str_forall] in N. apply andb_true_iff in N as [_ N]. destruct (IH N a E) as [-> ->]. auto.
Qed.
Lemma single_op n op v : plain n -> plain v -> In op ["=="; ">="; "~="; "!="] ->
  parse_line (n +s+ op +s+ v) = pypi (trim_space n) (if seqb op "!=" then "0.0.0" else upto " " (trim_space v)).
Proof.
  intros N V O. assert (SP : exists l l', ops = l ++ op :: l' /\ ~ In op l').
  { cbn in O. destruct O as [<-|[<-|[<-|[<-|[]]]]]; [exists [], [">="; "~="; "!="]|exists ["=="], ["~="; "!="]|exists ["=="; ">="], ["!="]|exists ["=="; ">="; "~="], []]; split; (reflexivity || cbn; intuition discriminate). }
  destruct SP as (l & l' & E & NI). eapply requirement_fun; [apply parse_line_is|]. eapply (rq_op _ l op l' n v E).
  - intros o I (a & b & X). assert (IO : In o ops) by (rewrite E; apply in_or_app; right; now right).
    destruct (plain_occurs n op v a o b N V O IO X) as [_ ->]. contradiction.
  - split; [reflexivity|]. intros a b X. destruct (plain_occurs n op v a op b N V O O X) as [-> _]. lia.
Qed.
