From Verif Require Import GoStr GoStrFacts Types Osv OsvSpec MemDBSpec MemDBProofs Describe Lockfile Report ReportSpec PathFacts.

(** ** building the report *)
Lemma mem_iff x l : mem x l = true <-> In x l.
Proof.
  unfold mem. rewrite existsb_exists. split.
  - intros (y & H & E). apply seqb_eq in E. now subst.
  - intros H. exists x. split; [exact H|apply seqb_refl].
Qed.
Lemma column_found n all i : answered n all -> i < n -> column i all = Ok (found all i).
Proof.
  intros F Hi. induction F as [|r all Hr F IH]; [reflexivity|]. cbn [column found].
  unfold found. cbn [map concat].
  rewrite (nth_error_nth' r []) by lia. rewrite IH. reflexivity.
Qed.

Lemma selects_app {A} (P : A -> Prop) l1 s1 l2 s2 : selects P l1 s1 -> selects P l2 s2 -> selects P (l1 ++ l2) (s1 ++ s2).
Proof. intros H1 H2. induction H1; cbn; [exact H2|now apply sel_take|now apply sel_skip]. Qed.
Lemma selects_one {A} (P : A -> Prop) x : P x -> selects P [x] [x].
Proof. intros H. apply sel_take; [exact H|apply sel_nil]. Qed.
Lemma selects_not {A} (P : A -> Prop) x : ~ P x -> selects P [x] [].
Proof. intros H. apply sel_skip; [exact H|apply sel_nil]. Qed.

Lemma selects_in {A} (P : A -> Prop) l s x : selects P l s -> (In x s <-> In x l /\ P x).
Proof.
  intros H. induction H as [|y l s Hy H IH|y l s Hy H IH]; cbn.
  - tauto.
  - rewrite IH. split; [intros [<-|[I J]]|intros [[<-|I] J]]; auto.
  - rewrite IH. split; [intros [I J]; auto|intros [[<-|I] J]; [contradiction|auto]].
Qed.

Lemma fold_divided ignores vs : forall row,
  row = fold_left (transpose_step ignores) vs ([], []) ->
  exists k, dedup_of vs k /\ selects (fun v => ~ In (o_id v) ignores) k (fst row)
                          /\ selects (fun v => In (o_id v) ignores) k (snd row).
Proof.
  induction vs as [|v vs IH] using rev_ind; intros row ->.
  - exists []. repeat split; constructor.
  - rewrite fold_left_app. cbn [fold_left].
    destruct (IH _ eq_refl) as (k & D & S1 & S2).
    destruct (fold_left (transpose_step ignores) vs ([], [])) as [a b]. cbn [fst snd] in *.
    unfold transpose_step.
    assert (Inc : includes a v || includes b v = true <-> exists x, In x k /\ related x v).
    { rewrite orb_true_iff, !includes_iff. split.
      - intros [(x & I & R)|(x & I & R)]; exists x; split; auto;
          [apply (selects_in _ _ _ x S1) in I|apply (selects_in _ _ _ x S2) in I]; tauto.
      - intros (x & I & R). destruct (mem (o_id x) ignores) eqn:E.
        + right. exists x. split; [|exact R]. apply (selects_in _ _ _ x S2). split; [exact I|now apply mem_iff].
        + left. exists x. split; [|exact R]. apply (selects_in _ _ _ x S1). split; [exact I|].
          intros J. apply mem_iff in J. congruence. }
    destruct (includes a v || includes b v) eqn:E.
    + destruct (proj1 Inc eq_refl) as (x & I & R). exists k. cbn [fst snd]. split; [|auto]. econstructor; eauto.
    + exists (k ++ [v]). split; [|destruct (mem (o_id v) ignores) eqn:M; cbn [fst snd]].
      * constructor; [exact D|]. intros x I R. assert (false = true) by (apply Inc; eauto). discriminate.
      * apply mem_iff in M. split; [rewrite <- (app_nil_r a)|]; apply selects_app; auto using selects_one.
        apply selects_not. tauto.
      * assert (~ In (o_id v) ignores) by (intros J; apply mem_iff in J; congruence).
        split; [|rewrite <- (app_nil_r b)]; apply selects_app; auto using selects_one, selects_not.
Qed.

Lemma transpose_ok n pkg ignores i all : answered n all -> i < n ->
  exists row, transpose pkg ignores i all = Ok row /\ pv_pkg row = pkg
    /\ forall k, dedup_of (found all i) k -> divided ignores k row.
Proof.
  intros F Hi. unfold transpose. rewrite (column_found n) by assumption. cbn [rbind].
  destruct (fold_left (transpose_step ignores) (found all i) ([], [])) as [a b] eqn:E.
  exists (mkPV pkg a b). split; [reflexivity|]. split; [reflexivity|]. intros k D.
  destruct (fold_divided ignores (found all i) (a, b) (eq_sym E)) as (k' & D' & S1 & S2).
  rewrite (dedup_fun _ _ _ D D'). split; assumption.
Qed.
Lemma transpose_all_ok n ignores all pkgs : forall i, answered n all -> i + List.length pkgs = n ->
  exists rows, transpose_all pkgs ignores i all = Ok rows /\ map pv_pkg rows = pkgs
    /\ forall j row, nth_error rows j = Some row -> forall k, dedup_of (found all (i + j)) k -> divided ignores k row.
Proof.
  induction pkgs as [|p ps IH]; intros i F L; cbn [transpose_all].
  - exists []. repeat split; auto; destruct j; discriminate.
  - cbn in L. destruct (transpose_ok n p ignores i all F) as (row & E1 & E2 & E3); [lia|].
    destruct (IH (i + 1) F) as (rows & R1 & R2 & R3); [lia|].
    exists (row :: rows). rewrite E1. cbn [rbind]. rewrite R1. cbn [rbind map]. rewrite E2, R2.
    split; [reflexivity|]. split; [reflexivity|]. intros [|j] r H k; cbn in H.
    + injection H as <-. rewrite Nat.add_0_r. apply E3.
    + replace (i + S j) with (i + 1 + j) by lia. now apply R3.
Qed.

Lemma divided_listed ignores k row v : divided ignores k row -> (In v (listed row) <-> In v k).
Proof.
  intros [S1 S2]. unfold listed. rewrite in_app_iff, (selects_in _ _ _ v S1), (selects_in _ _ _ v S2).
  destruct (in_dec string_dec (o_id v) ignores); tauto.
Qed.

Lemma FOP_iff {A} (R : A -> A -> Prop) l : (forall a b, R a b -> R b a) ->
  forall l', Permutation l l' -> ForallOrdPairs R l -> ForallOrdPairs R l'.
Proof.
  intros Sy l' P. induction P as [|x l l' P IH|x y l|l1 l2 l3 P1 IH1 P2 IH2]; intros H.
  - constructor.
  - inversion H; subst. constructor; [|auto]. eapply Permutation_Forall; eauto.
  - inversion H; subst. inversion H3; subst. inversion H2; subst. constructor; [constructor; auto|].
    constructor; auto.
  - auto.
Qed.
Lemma divided_perm ignores k row : divided ignores k row -> Permutation k (listed row).
Proof.
  intros [S1 S2]. unfold listed. destruct row as [p a b]. cbn in *. revert b S2.
  induction S1 as [|x l s Hx S1 IH|x l s Hx S1 IH]; intros b S2.
  - inversion S2; subst. constructor.
  - inversion S2 as [|y l' s' Hy S2'|y l' s' Hy S2']; subst; [contradiction|]. cbn. constructor. now apply IH.
  - destruct (in_dec string_dec (o_id x) ignores) as [I|I]; [|contradiction].
    inversion S2 as [|y l' s' Hy S2'|y l' s' Hy S2']; subst; [|contradiction].
    apply Permutation_cons_app. now apply IH.
Qed.

Lemma accounted pkgs ignores all : answered (List.length pkgs) all ->
  exists rows, transpose_all pkgs ignores 0 all = Ok rows /\ map pv_pkg rows = pkgs
    /\ forall i row, nth_error rows i = Some row ->
         (forall v, In v (found all i) -> exists w, In w (listed row) /\ (w = v \/ related w v))
         /\ incl (listed row) (found all i)
         /\ ForallOrdPairs (fun a b => ~ related a b) (listed row).
Proof.
  intros F. destruct (transpose_all_ok _ ignores all pkgs 0 F eq_refl) as (rows & R1 & R2 & R3).
  exists rows. split; [exact R1|]. split; [exact R2|]. intros i row H.
  pose proof (unique_dedup (found all i)) as D. cbn in R3. specialize (R3 i row H _ D).
  destruct (dedup_props _ _ D) as (P1 & P2 & P3). split; [|split].
  - intros v Hv. destruct (P3 v Hv) as (w & I & E). exists w. split; [|exact E]. now apply (divided_listed ignores (unique (found all i))).
  - intros v Hv. apply P1. now apply (divided_listed ignores _ row).
  - eapply FOP_iff; [|apply (divided_perm ignores _ row R3)|exact P2].
    intros a b N R. apply N. now apply related_sym.
Qed.

Lemma ignores_divide pkgs all : answered (List.length pkgs) all ->
  exists ks, Forall2 (fun vs k => dedup_of vs k) (map (found all) (seq 0 (List.length pkgs))) ks
    /\ forall ignores, exists rows, transpose_all pkgs ignores 0 all = Ok rows
         /\ map pv_pkg rows = pkgs /\ Forall2 (divided ignores) ks rows.
Proof.
  intros F. exists (map unique (map (found all) (seq 0 (List.length pkgs)))). split.
  - generalize (map (found all) (seq 0 (List.length pkgs))). intros l. induction l; constructor; auto using unique_dedup.
  - intros ignores. destruct (transpose_all_ok _ ignores all pkgs 0 F eq_refl) as (rows & R1 & R2 & R3).
    exists rows. split; [exact R1|]. split; [exact R2|].
    assert (L : List.length rows = List.length pkgs) by (rewrite <- R2, map_length; reflexivity).
    rewrite <- L. cbn in R3. clear - R3.
    assert (G : forall base, (forall j row, nth_error rows j = Some row -> forall k, dedup_of (found all (base + j)) k -> divided ignores k row) ->
                Forall2 (divided ignores) (map unique (map (found all) (seq base (List.length rows)))) rows).
    { clear R3. induction rows as [|r rows IH]; intros base H; cbn; [constructor|].
      constructor.
      - apply (H 0 r eq_refl). rewrite Nat.add_0_r. apply unique_dedup.
      - apply IH. intros j row Hj k D. apply (H (S j) row Hj). now replace (base + S j) with (S base + j) by lia. }
    now apply (G 0).
Qed.
Lemma own_id pkgs ignores all rows row v : answered (List.length pkgs) all ->
  transpose_all pkgs ignores 0 all = Ok rows -> In row rows -> In v (listed row) ->
  (In v (pv_ignored row) <-> In (o_id v) ignores) /\ (In v (pv_vulns row) <-> ~ In (o_id v) ignores).
Proof.
  intros F E Hr Hv. destruct (ignores_divide pkgs all F) as (ks & _ & H).
  destruct (H ignores) as (rows' & E' & _ & D). rewrite E in E'. injection E' as <-.
  apply In_nth_error in Hr as (i & Hi).
  assert (exists k, divided ignores k row) as (k & S1 & S2).
  { clear - D Hi. revert i Hi. induction D as [|k r ks rows Hd D IH]; intros [|i] Hi; cbn in Hi; try discriminate.
    - injection Hi as <-. eauto.
    - eauto. }
  pose proof (divided_listed ignores k row v (conj S1 S2)) as L. apply L in Hv.
  rewrite (selects_in _ _ _ v S1), (selects_in _ _ _ v S2). tauto.
Qed.

(** ** counts *)
Lemma sum_from l : forall n, fold_left Nat.add l n = n + sum l.
Proof.
  unfold sum. induction l as [|a l IH]; intros n; cbn; [lia|]. rewrite (IH (n + a)), (IH a). lia.
Qed.
Lemma sum_cons a l : sum (a :: l) = a + sum l.
Proof. unfold sum at 1. cbn. apply sum_from. Qed.
Lemma sum_lengths {A B} (f : A -> list B) l : sum (map (fun p => List.length (f p)) l) = List.length (concat (map f l)).
Proof. induction l as [|a l IH]; [reflexivity|]. cbn [map concat]. rewrite sum_cons, app_length, IH. reflexivity. Qed.
Lemma count_known_len r : count_known r = List.length (advisories r).
Proof. apply sum_lengths. Qed.
Lemma count_ignored_len r : count_ignored r = List.length (ignored r).
Proof. apply sum_lengths. Qed.
Lemma has_known_iff r : has_known r = true <-> advisories r <> [].
Proof. unfold has_known. rewrite count_known_len, Nat.ltb_lt. destruct (advisories r); cbn; split; intros; try lia; congruence. Qed.
Lemma has_ignored_iff r : has_ignored r = true <-> ignored r <> [].
Proof. unfold has_ignored. rewrite count_ignored_len, Nat.ltb_lt. destruct (ignored r); cbn; split; intros; try lia; congruence. Qed.

(** ** text *)
Lemma has_char_app c a b : has_char c (a +s+ b) = has_char c a || has_char c b.
Proof. induction a as [|d a IH]; cbn; [reflexivity|]. now rewrite IH, orb_assoc. Qed.
Lemma digit_char_cases n : In (digit_char (n mod 10)) (map digit_char [0;1;2;3;4;5;6;7;8;9]%N).
Proof.
  apply in_map. assert (H : (n mod 10 < 10)%N) by (apply N.mod_lt; discriminate).
  destruct (n mod 10)%N as [|p]; [now left|]. cbn. do 4 (destruct p as [p|p|]; try lia; try tauto).
Qed.
Definition digits_only (s : string) : Prop := forall c, has_char c s = true -> In c (map digit_char [0;1;2;3;4;5;6;7;8;9]%N).
Lemma dec_fuel_digits f : forall n acc, digits_only acc -> digits_only (dec_fuel f n acc).
Proof.
  induction f as [|f IH]; intros n acc H; cbn [dec_fuel]; [exact H|].
  assert (D : digits_only (String (digit_char (n mod 10)) acc)).
  { intros c Hc. cbn in Hc. apply orb_true_iff in Hc as [Hc|Hc]; [|auto]. apply Ascii.eqb_eq in Hc. subst. apply digit_char_cases. }
  destruct (n <? 10)%N; auto.
Qed.
Lemma dec_fuel_nonempty f : forall n acc, acc <> "" \/ f <> 0 -> dec_fuel f n acc <> "".
Proof.
  induction f as [|f IH]; intros n acc H; cbn [dec_fuel]; [destruct H; congruence|].
  destruct (n <? 10)%N; [discriminate|]. apply IH. left. discriminate.
Qed.
Lemma dec_digits n : digits_only (dec_of_nat n).
Proof. apply dec_fuel_digits. intros c H. discriminate. Qed.
Lemma dec_one_line n : one_line (dec_of_nat n).
Proof.
  unfold one_line. apply not_true_iff_false. intros H. apply dec_digits in H. vm_compute in H.
  repeat destruct H as [H|H]; try discriminate. exact H.
Qed.
Lemma dec_head n : exists c s, dec_of_nat n = String c s /\ c <> " "%char.
Proof.
  destruct (dec_of_nat n) as [|c s] eqn:E.
  - exfalso. revert E. apply dec_fuel_nonempty. right. discriminate.
  - exists c, s. split; [reflexivity|]. intros ->. assert (H : has_char " " (dec_of_nat n) = true) by (rewrite E; reflexivity).
    apply dec_digits in H. vm_compute in H. repeat destruct H as [H|H]; try discriminate. exact H.
Qed.

Section Text.
Variable col : string -> string -> string.
Hypothesis C : ColOk col.

Lemma col_one_line a t : one_line t -> one_line (col a t).
Proof.
  intros H. destruct (C a t) as [->|(c & d & H1 & H2 & ->)]; [exact H|].
  unfold one_line in *. cbn [has_char String.append]. rewrite !has_char_app, H, H1, H2. reflexivity.
Qed.
Lemma col_nonempty a t : t <> "" -> col a t <> "".
Proof. intros H. destruct (C a t) as [->|(c & d & H1 & H2 & ->)]; [exact H|discriminate]. Qed.
Lemma remark_spec r : describe_ignores col r = remark col (List.length (ignored r)).
Proof.
  unfold describe_ignores. rewrite count_ignored_len. destruct (List.length (ignored r)) as [|[|n]]; reflexivity.
Qed.
Lemma word_spec n : (if negb (seqb (remark col n) "") then "new" else "known") = word_for n.
Proof.
  destruct n as [|[|n]]; [reflexivity| |]; cbn [remark word_for].
  - rewrite (proj2 (seqb_neq _ _)); [reflexivity|]. now apply col_nonempty.
  - rewrite (proj2 (seqb_neq _ _)); [reflexivity|]. now apply col_nonempty.
Qed.
Lemma remark_one_line n : one_line (remark col n).
Proof.
  destruct n as [|[|n]]; cbn [remark]; [reflexivity|now apply col_one_line|].
  apply col_one_line. unfold one_line. rewrite !has_char_app. now rewrite dec_one_line.
Qed.

Definition vline (v : OSV) : string := "    " +s+ col "cyan" (o_id v +s+ ":") +s+ " " +s+ describe v.

Lemma header_not_indented n x rest : has_prefix (n +s+ "@") "  " = false ->
  has_prefix ("  " +s+ col "yellow" (n +s+ "@" +s+ x) +s+ rest) "    " = false.
Proof.
  intros H. apply has_prefix_false. intros r E. apply (sapp_inj_l "  " _ ("  " +s+ r)) in E.
  destruct (C "yellow" (n +s+ "@" +s+ x)) as [Q|(c & d & _ & _ & Q)]; rewrite Q in E; [|discriminate].
  destruct n as [|a [|b n]]; cbn in E, H; [discriminate| |].
  - injection E. discriminate.
  - injection E as -> -> E. discriminate.
Qed.
Lemma pkg_lines_ok p : one_line (p_name (pv_pkg p)) -> one_line (p_version (pv_pkg p)) ->
  has_prefix (p_name (pv_pkg p) +s+ "@") "  " = false ->
  Forall (fun v => one_line (o_id v) /\ one_line (describe v)) (pv_vulns p) ->
  Forall one_line (pkg_lines col p)
  /\ filter (fun l => has_prefix l "    ") (pkg_lines col p) = map vline (pv_vulns p).
Proof.
  intros N V Pf D. unfold pkg_lines. destruct (Nat.eqb_spec (List.length (pv_vulns p)) 0) as [E|E].
  - destruct (pv_vulns p); [|discriminate]. split; [constructor|reflexivity].
  - split.
    + constructor.
      * unfold one_line. rewrite !has_char_app. unfold one_line in *.
        rewrite (col_one_line "yellow"), (col_one_line "red"); [reflexivity|reflexivity|].
        unfold one_line. rewrite !has_char_app, N, V. reflexivity.
      * apply Forall_map. eapply Forall_impl; [|exact D]. intros v [I1 I2]. unfold one_line. rewrite !has_char_app.
        rewrite (col_one_line "cyan"), I2; [reflexivity|]. unfold one_line. now rewrite has_char_app, I1.
    + cbn [filter]. rewrite header_not_indented by exact Pf.
      clear. induction (pv_vulns p) as [|v vs IH]; [reflexivity|].
      cbn [map filter]. rewrite has_prefix_app. now rewrite IH.
Qed.
Lemma all_lines r : readable r ->
  Forall one_line (flat_map (pkg_lines col) (rp_pkgs r))
  /\ filter (fun l => has_prefix l "    ") (flat_map (pkg_lines col) (rp_pkgs r)) = map vline (advisories r).
Proof.
  intros [_ H1 H2]. unfold advisories. induction (rp_pkgs r) as [|p ps IH]; [split; [constructor|reflexivity]|].
  inversion H1; subst. inversion H2; subst. destruct H3 as (A1 & A2 & A3).
  destruct (pkg_lines_ok p A1 A2 A3 H5) as [L1 L2]. destruct IH as [I1 I2]; auto.
  cbn [flat_map map concat]. rewrite map_app, filter_app, L2, I2. split; [|reflexivity].
  apply Forall_app. auto.
Qed.
Lemma summary_one_line r n w f : readable r -> one_line w -> one_line f ->
  one_line ("  " +s+ col "red" (dec_of_nat n +s+ " " +s+ w +s+ " " +s+ f +s+ " found in " +s+ lf_path (rp_lock r))
            +s+ remark col (List.length (ignored r))).
Proof.
  intros R H1 H2. unfold one_line in *. rewrite !has_char_app.
  rewrite (remark_one_line (List.length (ignored r))), col_one_line; [reflexivity|].
  unfold one_line. rewrite !has_char_app, dec_one_line, H1, H2. rewrite (rd_path _ R). reflexivity.
Qed.

Lemma text_none r : advisories r = [] ->
  report_string col r = "  " +s+ col "green" ("no " +s+ word_for (List.length (ignored r)) +s+ " vulnerabilities found")
                        +s+ remark col (List.length (ignored r)) +s+ newline.
Proof.
  intros H. unfold report_string. rewrite count_known_len, H, remark_spec, word_spec. reflexivity.
Qed.
Lemma flat_lines_nonempty r : advisories r <> [] -> flat_map (pkg_lines col) (rp_pkgs r) <> [].
Proof.
  unfold advisories. induction (rp_pkgs r) as [|p ps IH]; [auto|]. cbn [flat_map map concat].
  unfold pkg_lines at 1. destruct (pv_vulns p); cbn; [exact IH|discriminate].
Qed.
Lemma text_some r : advisories r <> [] ->
  report_string col r = join newline (flat_map (pkg_lines col) (rp_pkgs r) ++ [""; "  "
    +s+ col "red" (dec_of_nat (List.length (advisories r)) +s+ " " +s+ word_for (List.length (ignored r)) +s+ " " +s+ plural (List.length (advisories r))
                   +s+ " found in " +s+ lf_path (rp_lock r))
    +s+ remark col (List.length (ignored r)); ""]).
Proof.
  intros H. unfold report_string. rewrite count_known_len, remark_spec, word_spec.
  rewrite join_app; [|now apply flat_lines_nonempty|discriminate].
  destruct (Nat.eqb_spec (List.length (advisories r)) 0) as [E|E]; [destruct (advisories r); [congruence|discriminate]|].
  unfold format_lines. set (F := join newline (flat_map _ _)).
  assert (P : form (List.length (advisories r)) "vulnerability" "vulnerabilities" = plural (List.length (advisories r)))
    by (destruct (List.length (advisories r)) as [|[|n]]; reflexivity).
  rewrite P. cbn [join]. rewrite !sapp_assoc. cbn [String.append newline]. reflexivity.
Qed.
Lemma summary_not_indented n rest rest' : has_prefix ("  " +s+ col "red" (dec_of_nat n +s+ rest) +s+ rest') "    " = false.
Proof.
  apply has_prefix_false. intros r E. apply (sapp_inj_l "  " _ ("  " +s+ r)) in E.
  destruct (C "red" (dec_of_nat n +s+ rest)) as [Q|(c & d & _ & _ & Q)]; rewrite Q in E; [|discriminate].
  destruct (dec_head n) as (c & s & D & N). rewrite D in E. cbn in E. injection E as E1 E2. now apply N.
Qed.
Lemma text_lines r : readable r -> advisories r <> [] ->
  advisory_lines (report_string col r) = map vline (advisories r)
  /\ exists first, lines (report_string col r) = first ++ [""; "  "
    +s+ col "red" (dec_of_nat (List.length (advisories r)) +s+ " " +s+ word_for (List.length (ignored r)) +s+ " " +s+ plural (List.length (advisories r))
                   +s+ " found in " +s+ lf_path (rp_lock r))
    +s+ remark col (List.length (ignored r)); ""].
Proof.
  intros R H. destruct (all_lines r R) as [L1 L2].
  assert (E : lines (report_string col r) = flat_map (pkg_lines col) (rp_pkgs r) ++ [""; "  "
    +s+ col "red" (dec_of_nat (List.length (advisories r)) +s+ " " +s+ word_for (List.length (ignored r)) +s+ " " +s+ plural (List.length (advisories r))
                   +s+ " found in " +s+ lf_path (rp_lock r))
    +s+ remark col (List.length (ignored r)); ""]).
  { rewrite text_some by exact H.
    unfold lines, newline. apply split_char_join; [intros Q; apply app_eq_nil in Q as [_ Q]; discriminate|].
    apply Forall_app. split; [exact L1|]. constructor; [reflexivity|]. constructor; [|constructor; [reflexivity|constructor]].
    apply summary_one_line; [exact R| |]; [destruct (List.length (ignored r))|destruct (List.length (advisories r)) as [|[|n]]]; reflexivity. }
  split; [|eauto]. unfold advisory_lines. rewrite E, filter_app, L2.
  cbn [filter]. rewrite summary_not_indented. cbn. apply app_nil_r.
Qed.
Lemma text_some_lines r : advisories r <> [] -> 2 < List.length (lines (report_string col r)).
Proof.
  intros H. rewrite text_some by exact H. set (s := "  " +s+ _). rewrite join_app; [|now apply flat_lines_nonempty|discriminate].
  set (b := join newline _).
  assert (G : forall u v, List.length (lines (u +s+ String "010" v)) >= S (List.length (lines v))).
  { clear. intros u v. induction u as [|c u IH].
    - cbn. auto.
    - unfold lines in *. cbn [String.append split_char]. destruct (Ascii.eqb "010" c); cbn [List.length]; [lia|].
      destruct (split_char "010" (u +s+ String "010" v)); cbn in *; lia. }
  unfold newline. cbn [join String.append].
  pose proof (G b (String "010" (s +s+ String "010" ""))) as G1. pose proof (G "" (s +s+ String "010" "")) as G2.
  pose proof (G s "") as G3. cbn [String.append lines] in *. assert (1 <= List.length (lines "")) by (cbn; lia). lia.
Qed.
Lemma says_none r :
  (report_string col r = "  " +s+ col "green" ("no " +s+ word_for (List.length (ignored r)) +s+ " vulnerabilities found")
                        +s+ remark col (List.length (ignored r)) +s+ newline) <-> advisories r = [].
Proof.
  split; [|apply text_none]. intros E.
  assert (L : List.length (lines (report_string col r)) = 2).
  { rewrite E. unfold lines, newline. rewrite <- !sapp_assoc.
    rewrite split_char_app; [reflexivity|]. rewrite !has_char_app, remark_one_line, col_one_line; [reflexivity|].
    unfold one_line. rewrite !has_char_app. now destruct (List.length (ignored r)). }
  destruct (advisories r) eqn:A; [reflexivity|].
  assert (2 < List.length (lines (report_string col r))) by (apply text_some_lines; congruence). lia.
Qed.
End Text.
