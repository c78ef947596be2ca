From Verif Require Import GoStr GoStrFacts Types Regex RegexFacts RegexIn MemDB Scan Ecosystems LockIO Commit CommitSpec CommitProofs LockSpec KeyLocksProofs YarnLock YarnSpec.
From Coq Require Import Lia Arith.

(** ** blocks *)
Lemma counts_skip l : should_skip_yarn_line l = true <-> ~ counts l.
Proof.
  unfold should_skip_yarn_line, counts. rewrite orb_true_iff, has_prefix_iff. destruct (seqb_spec l "") as [->|N].
  - split; [intros _ [H _]; congruence|auto].
  - split; [intros [H|(r & ->)]; [discriminate|]; intros [_ H]; now apply (H r)|]. intros H. right. destruct (has_prefix l "#") eqn:P; [now apply has_prefix_iff|].
    exfalso. apply H. split; [exact N|]. now apply has_prefix_false.
Qed.
Lemma indented_iff l : has_prefix l " " = true <-> indented l.
Proof. apply has_prefix_iff. Qed.
(** blocks of lines when the group [g] is being collected *)
Record blocks_from (ls : list string) (g : list string) (bs : list (list string)) : Prop := mkFrom {
  bf_lines : exists ks, counted ls ks /\ concat bs = g ++ ks;
  bf_some : Forall (fun b => b <> []) bs;
  bf_tail : forall h t, In (h :: t) bs -> Forall indented t;
  bf_head : forall b bs' h t, bs = b :: bs' -> In (h :: t) bs' -> ~ indented h;
  bf_first : g = [] \/ exists x bs', bs = (g ++ x) :: bs' }.
Lemma group_from ls : forall g, (forall h t, g = h :: t -> Forall indented t) -> blocks_from ls g (group_lines ls g).
Proof.
  induction ls as [|l ls IH]; intros g G.
  - cbn. destruct g as [|h t]; split; cbn.
    + exists []. split; [constructor|reflexivity].
    + constructor.
    + intros h t [].
    + intros b bs' h t H. discriminate.
    + now left.
    + exists []. split; [constructor|now rewrite !app_nil_r].
    + repeat constructor. discriminate.
    + intros h' t' [H|[]]. injection H as <- <-. eapply G; reflexivity.
    + intros b bs' h' t' H. injection H as <- <-. intros [].
    + right. exists [], []. now rewrite app_nil_r.
  - cbn [group_lines]. destruct (should_skip_yarn_line l) eqn:S.
    + apply counts_skip in S. destruct (IH g G) as [(ks & C & E) A B D F]. split; auto. exists ks. split; [now constructor|exact E].
    + assert (C : counts l) by (destruct (Bool.bool_dec (should_skip_yarn_line l) true) as [X|X]; [congruence|]; 
        unfold should_skip_yarn_line in S; apply orb_false_iff in S as [S1 S2]; split; [destruct (seqb_spec l ""); [discriminate|assumption]|now apply has_prefix_false]).
      destruct (has_prefix l " ") eqn:P; cbn [negb].
      * apply indented_iff in P. assert (G' : forall h t, g ++ [l] = h :: t -> g = [] \/ Forall indented t).
        { intros h t E. destruct g as [|h' t']; [now left|right]. cbn in E. injection E as <- <-. apply Forall_app. split; [eapply G; reflexivity|now repeat constructor]. }
        destruct (IH (g ++ [l])) as [(ks & CK & E) A B D F].
        { intros h t E. destruct g as [|h' t']; cbn in E; injection E as <- <-; [constructor|]. apply Forall_app. split; [eapply G; reflexivity|now repeat constructor]. }
        split; auto.
        -- exists (l :: ks). split; [now constructor|]. rewrite E, <- app_assoc. reflexivity.
        -- right. destruct F as [F|(x & bs' & F)]; [destruct g; discriminate|]. exists (l :: x), bs'. now rewrite F, <- app_assoc.
      * assert (I : ~ indented l) by (intros H; apply indented_iff in H; congruence).
        destruct (IH [l]) as [(ks & CK & E) A B D F]. { intros h t E. injection E as <- <-. constructor. }
        destruct F as [F|(x & bs' & F)]; [discriminate|]. destruct g as [|h t].
        -- split; auto. exists (l :: ks). split; [now constructor|exact E].
        -- split.
           ++ exists (l :: ks). split; [now constructor|]. cbn [concat]. now rewrite E.
           ++ constructor; [discriminate|exact A].
           ++ intros h' t' [H|H]; [injection H as <- <-; eapply G; reflexivity|eapply B; exact H].
           ++ intros b bs'' h' t' H. injection H as <- <-. rewrite F. intros [H|H]; [injection H as <- _; exact I|]. eapply D; [exact F|exact H].
           ++ right. exists [], (group_lines ls [l]). now rewrite app_nil_r.
Qed.
Lemma group_blocks ls : yarn_blocks ls (group_package_lines ls).
Proof.
  destruct (group_from ls []) as [(ks & C & E) A B D F]; [intros h t H; discriminate|]. split; auto. unfold group_package_lines. rewrite E. exact C.
Qed.
Lemma counted_fun ls ks : counted ls ks -> forall ks', counted ls ks' -> ks = ks'.
Proof.
  intros H. induction H as [|l ls ks C H IH|l ls ks C H IH]; intros ks' H'; inversion H'; subst; try contradiction; auto. f_equal. auto.
Qed.
(** equal lines, equal blocks *)
Lemma blocks_split bs : forall bs', concat bs = concat bs' -> Forall (fun b => b <> []) bs -> Forall (fun b => b <> []) bs' ->
  (forall h t, In (h :: t) bs -> Forall indented t) -> (forall h t, In (h :: t) bs' -> Forall indented t) ->
  (forall b l h t, bs = b :: l -> In (h :: t) l -> ~ indented h) -> (forall b l h t, bs' = b :: l -> In (h :: t) l -> ~ indented h) -> bs = bs'.
Proof.
  induction bs as [|b bs IH]; intros [|b' bs'] E S S' T T' H H'; auto.
  - inversion S'; subst. destruct b'; [congruence|discriminate].
  - inversion S; subst. destruct b; [congruence|discriminate].
  - inversion S as [|? ? S1 S2]; inversion S' as [|? ? S1' S2']; subst. destruct b as [|h t]; [congruence|]. destruct b' as [|h' t']; [congruence|].
    cbn in E. injection E as -> E.
    assert (Q : t = t').
    { pose proof (T h' t (or_introl eq_refl)) as I. pose proof (T' h' t' (or_introl eq_refl)) as I'.
      assert (K : forall l, (forall x, In x l -> exists h t, x = h :: t /\ ~ indented h) -> forall y ys, concat l = y :: ys -> ~ indented y).
      { intros l L y ys Y. destruct l as [|x l]; [discriminate|]. destruct (L x (or_introl eq_refl)) as (z & zs & -> & Z). cbn in Y. injection Y as <- _. exact Z. }
      assert (K1 : forall y ys, concat bs = y :: ys -> ~ indented y).
      { apply K. intros x X. destruct x as [|z zs]; [rewrite Forall_forall in S2; destruct (S2 _ X); reflexivity|]. exists z, zs. split; [reflexivity|]. eapply H; [reflexivity|exact X]. }
      assert (K2 : forall y ys, concat bs' = y :: ys -> ~ indented y).
      { apply K. intros x X. destruct x as [|z zs]; [rewrite Forall_forall in S2'; destruct (S2' _ X); reflexivity|]. exists z, zs. split; [reflexivity|]. eapply H'; [reflexivity|exact X]. }
      clear -E I I' K1 K2. revert t' E I'. induction I as [|y t Y I IH]; intros [|y' t'] E I'; auto.
      - exfalso. cbn in E. inversion I'; subst. eapply K1; eauto.
      - exfalso. cbn in E. symmetry in E. eapply K2; eauto.
      - cbn in E. injection E as -> E. inversion I'; subst. f_equal. auto. }
    subst t'. f_equal. apply app_inv_head in E. apply IH; auto.
    + intros a b I. apply (T a b). now right.
    + intros a b I. apply (T' a b). now right.
    + intros b l a c Q I. apply (H _ _ a c eq_refl). rewrite Q. now right.
    + intros b l a c Q I. apply (H' _ _ a c eq_refl). rewrite Q. now right.
Qed.
Lemma blocks_fun ls bs : yarn_blocks ls bs -> bs = group_package_lines ls.
Proof.
  intros [C S T H]. destruct (group_blocks ls) as [C' S' T' H']. apply blocks_split; auto. eapply counted_fun; eauto.
Qed.

(** ** names *)
(** one call *)
Definition yarn_step (rec : string -> string) (str : string) : string :=
  let str := trim_prefix str """" in
  let str := cut_before str "," in
  let '(str, is_scoped) := cut_prefix str "@" in
  let '(name, range, _) := cut str "@" in
  if has_prefix range "npm:" && contains range "@" then rec (trim_prefix range "npm:")
  else if is_scoped then "@" +s+ name else name.
Lemma trim_prefix_le s p : String.length (trim_prefix s p) <= String.length s.
Proof. unfold trim_prefix. destruct (strip_prefix p s) as [r|] eqn:E; [|lia]. apply strip_prefix_some in E as ->. rewrite slen_app. lia. Qed.
Lemma cut_before_le s p : String.length (cut_before s p) <= String.length s.
Proof. unfold cut_before, cut. destruct (cut_at p s) as [[b a]|] eqn:E; [|cbn; lia]. apply cut_at_some in E as [-> _]. cbn. rewrite slen_app. lia. Qed.
Lemma cut_range_le s name range ok : cut s "@" = (name, range, ok) -> String.length range <= String.length s.
Proof. unfold cut. destruct (cut_at "@" s) as [[b a]|] eqn:E; intros H; injection H as <- <- _; cbn; [|lia]. apply cut_at_some in E as [-> _]. rewrite !slen_app. cbn. lia. Qed.
Lemma cut_prefix_le s p r ok : cut_prefix s p = (r, ok) -> String.length r <= String.length s.
Proof. unfold cut_prefix. destruct (strip_prefix p s) as [t|] eqn:E; intros H; injection H as <- _; [|lia]. apply strip_prefix_some in E as ->. rewrite slen_app. lia. Qed.
Lemma yarn_step_ext f g str : (forall t, String.length t < String.length str -> f t = g t) -> yarn_step f str = yarn_step g str.
Proof.
  intros H. unfold yarn_step. destruct (cut_prefix _ "@") as [s sc] eqn:P. destruct (cut s "@") as [[name range] ok] eqn:C.
  destruct (has_prefix range "npm:" && contains range "@") eqn:B; [|reflexivity]. apply H. apply andb_true_iff in B as [B _]. apply has_prefix_iff in B as (r & ->).
  rewrite trim_prefix_app. apply cut_range_le in C. apply cut_prefix_le in P. pose proof (cut_before_le (trim_prefix str """") ","). pose proof (trim_prefix_le str """").
  rewrite slen_app in C. cbn in C. lia.
Qed.
Lemma yarn_fuel f : forall g str, String.length str < f -> String.length str < g -> yarn_name_fuel f str = yarn_name_fuel g str.
Proof.
  induction f as [|f IH]; intros [|g] str F G; try lia. change (yarn_step (yarn_name_fuel f) str = yarn_step (yarn_name_fuel g) str).
  apply yarn_step_ext. intros t T. apply IH; lia.
Qed.
Lemma yarn_name_eq str : extract_yarn_package_name str = yarn_step extract_yarn_package_name str.
Proof.
  unfold extract_yarn_package_name at 1. change (yarn_step (yarn_name_fuel (String.length str)) str = yarn_step extract_yarn_package_name str).
  apply yarn_step_ext. intros t T. apply yarn_fuel; lia.
Qed.
Lemma clean_head n r : clean_name n -> trim_prefix (n +s+ r) """" = n +s+ r.
Proof.
  intros ([NE _] & Q & _). apply trim_prefix_no. destruct n as [|c n]; [congruence|]. apply has_prefix_false. intros t E. cbn in E. injection E as -> _. discriminate.
Qed.
Lemma cut_before_absent s : has_char "," s = false -> cut_before s "," = s.
Proof. intros H. unfold cut_before. now rewrite cut_char_absent. Qed.
Lemma cut_before_found a b : has_char "," a = false -> cut_before (a +s+ "," +s+ b) "," = a.
Proof. intros H. unfold cut_before. change ("," +s+ b) with (String "," b). now rewrite cut_char_found. Qed.
Lemma entry_clean e n : entry_name e n -> exists m r, clean_name m /\ e = m +s+ r.
Proof. intros [n' r H _|n' H|a t n' H _ _]; eexists _, _; (split; [exact H|]); [reflexivity|symmetry; apply sapp_nil_r|reflexivity]. Qed.
Definition cut_name (str : string) : string * string := let '(str, sc) := cut_prefix str "@" in let '(n, v, _) := cut str "@" in (if sc then "@" +s+ n else n, v).
Lemma cut_name_at n r : npm_name n -> cut_name (n +s+ "@" +s+ r) = (n, r).
Proof. apply cut_at_name. Qed.
Lemma cut_name_bare n : npm_name n -> cut_name n = (n, "").
Proof.
  intros [NE [N|(r & -> & N)]]; unfold cut_name, cut_prefix.
  - destruct n as [|c n]; [congruence|]. cbn [strip_prefix]. destruct (Ascii.eqb_spec "@" c) as [<-|C]; [discriminate|]. now rewrite cut_char_absent.
  - cbn [append strip_prefix]. cbn. now rewrite cut_char_absent.
Qed.
Lemma step_cut rec str : yarn_step rec str =
  let '(name, range) := cut_name (cut_before (trim_prefix str """") ",") in if has_prefix range "npm:" && contains range "@" then rec (trim_prefix range "npm:") else name.
Proof. unfold yarn_step, cut_name. destruct (cut_prefix _ "@") as [s sc], (cut s "@") as [[n r] ok]. reflexivity. Qed.
Lemma contains_char c s : contains s (String c "") = has_char c s.
Proof.
  destruct (has_char c s) eqn:H.
  - apply has_char_iff in H as (x & y & ->). apply contains_iff. exists x, y. reflexivity.
  - apply contains_false. intros x y ->. rewrite has_char_app in H. cbn in H. rewrite Ascii.eqb_refl, orb_true_r in H. discriminate.
Qed.
Lemma name_body rec e n rest : entry_name e n -> (forall t m, entry_name t m -> String.length t < String.length e -> has_char "," t = false -> rec t = m) -> has_char "," e = false ->
  (rest = "" \/ exists r, rest = "," +s+ r) -> forall q, (q = "" \/ q = quote) -> yarn_step rec (q +s+ e +s+ rest) = n.
Proof.
  intros E R C RS q Q. rewrite step_cut. assert (T : trim_prefix (q +s+ e +s+ rest) """" = e +s+ rest).
  { destruct Q as [->| ->]; [|apply (trim_prefix_app """")]. cbn [append]. destruct (entry_clean _ _ E) as (m & r & M & ->). rewrite sapp_assoc. now apply clean_head. }
  rewrite T. assert (B : cut_before (e +s+ rest) "," = e).
  { destruct RS as [->|(r & ->)]; [rewrite sapp_nil_r; now apply cut_before_absent|now apply cut_before_found]. }
  rewrite B. clear B T q Q rest RS. destruct E as [n r [N _] A|n [N _]|a t n [N _] H E].
  - rewrite cut_name_at by exact N. destruct (has_prefix r "npm:") eqn:P; cbn [andb]; [|reflexivity]. apply has_prefix_iff in P as (t & ->).
    rewrite contains_char, has_char_app. rewrite (A t eq_refl). reflexivity.
  - rewrite cut_name_bare by exact N. reflexivity.
  - change ("@npm:" +s+ t) with ("@" +s+ "npm:" +s+ t). rewrite cut_name_at by exact N. rewrite has_prefix_app, contains_char, has_char_app, H. cbn [andb orb has_char].
    rewrite trim_prefix_app. rewrite !has_char_app in C. apply orb_false_iff in C as [_ C]. cbn in C.
    rewrite ?orb_true_r. cbn. apply R; [exact E| |exact C]. rewrite !slen_app. cbn. lia.
Qed.
Lemma entry_extract e n : entry_name e n -> has_char "," e = false -> extract_yarn_package_name e = n.
Proof.
  remember (String.length e) as k eqn:K. assert (L : String.length e <= k) by lia. clear K. revert e n L. induction k as [|k IH]; intros e n L E C; rewrite yarn_name_eq.
  - replace e with ("" +s+ e +s+ "") by (cbn; apply sapp_nil_r). apply (name_body _ e n ""); auto. intros t m _ T. lia.
  - replace e with ("" +s+ e +s+ "") by (cbn; apply sapp_nil_r). apply (name_body _ e n ""); auto. intros t m H T Ct. apply IH; auto. lia.
Qed.
Lemma header_extract h n : header_name h n -> extract_yarn_package_name h = n.
Proof. intros (q & e & rest & Q & C & R & -> & E). rewrite yarn_name_eq. apply (name_body _ e n rest); auto. intros t m H _ Ct. now apply entry_extract. Qed.

(** ** lines *)
Ltac step H y := rewrite seqs2, in_sq in H; destruct H as (y & ?Y & H).
Ltac go z := rewrite seqs2, in_sq; exists z; split.
Lemma in_quote b v cs x : In x (ms Quote (mkst b v cs)) <-> exists q t, maybe quote q /\ v = q +s+ t /\ x = mkst (starts q && b) t cs.
Proof.
  unfold Quote. rewrite in_opt, in_chr. split.
  - intros [(t & -> & ->)| ->]; [exists quote, t; split; [now right|auto]|]. exists "", v. split; [now left|auto].
  - intros (q & t & [->| ->] & -> & ->); [now right|left]. exists t. auto.
Qed.
Lemma in_colon b v cs x : In x (ms (Opt (Chr ":")) (mkst b v cs)) <-> exists q t, maybe ":" q /\ v = q +s+ t /\ x = mkst (starts q && b) t cs.
Proof.
  rewrite in_opt, in_chr. split.
  - intros [(t & -> & ->)| ->]; [exists ":", t; split; [now right|auto]|]. exists "", v. split; [now left|auto].
  - intros (q & t & [->| ->] & -> & ->); [now right|left]. exists t. auto.
Qed.
Lemma version_sound l m : find re_yarn_version l = Some m -> version_line l (group m 1).
Proof.
  intros F. apply find_some in F as (u & v & x & -> & H & C & _). unfold group. rewrite C. clear C m. unfold re_yarn_version in H. cbn [app] in H.
  step H y. apply in_bol in Y as [B ->]. destruct u; [|discriminate]. clear B. step H y. apply in_lit in Y as (t & -> & ->).
  step H y. apply in_quote in Y as (q1 & t1 & Q1 & -> & ->). step H y. apply in_lit in Y as (t2 & -> & ->).
  step H y. apply in_quote in Y as (q2 & t3 & Q2 & -> & ->). step H y. apply in_colon in Y as (k & t4 & K & -> & ->).
  step H y. apply in_chr in Y as (t5 & -> & ->). step H y. apply in_quote in Y as (q3 & t6 & Q3 & -> & ->). step H y. apply in_cap_plus in Y as (w & t7 & N & W & -> & ->).
  step H y. apply in_quote in Y as (q4 & t8 & Q4 & -> & ->). rewrite seqs1 in H. apply in_eol in H as [E ->]. cbn [st_rest] in E. subst t8. cbn [st_caps cap_of Nat.eqb].
  exists q1, q2, k, q3, q4. rewrite sapp_nil_r. repeat split; auto.
Qed.
Lemma version_complete l v : version_line l v -> find re_yarn_version l <> None.
Proof.
  intros (q1 & q2 & k & q3 & q4 & Q1 & Q2 & K & Q3 & Q4 & [N W] & ->) F. rewrite find_none in F.
  apply (F "" _ (mkst false "" [(1, v)]) eq_refl). unfold re_yarn_version.
  go (mkst true ("  " +s+ q1 +s+ "version" +s+ q2 +s+ k +s+ " " +s+ q3 +s+ v +s+ q4) []); [apply in_bol; auto|].
  go (mkst false (q1 +s+ "version" +s+ q2 +s+ k +s+ " " +s+ q3 +s+ v +s+ q4) []); [apply in_lit; eexists; split; reflexivity|].
  go (mkst false ("version" +s+ q2 +s+ k +s+ " " +s+ q3 +s+ v +s+ q4) []); [apply in_quote; exists q1; eexists; rewrite andb_false_r; auto|].
  go (mkst false (q2 +s+ k +s+ " " +s+ q3 +s+ v +s+ q4) []); [apply in_lit; eexists; split; reflexivity|].
  go (mkst false (k +s+ " " +s+ q3 +s+ v +s+ q4) []); [apply in_quote; exists q2; eexists; rewrite andb_false_r; auto|].
  go (mkst false (" " +s+ q3 +s+ v +s+ q4) []); [apply in_colon; exists k; eexists; rewrite andb_false_r; auto|].
  go (mkst false (q3 +s+ v +s+ q4) []); [apply in_chr; eexists; split; reflexivity|].
  go (mkst false (v +s+ q4) []); [apply in_quote; exists q3; eexists; rewrite andb_false_r; auto|].
  go (mkst false q4 [(1, v)]); [apply in_cap_plus; exists v, q4; auto|].
  go (mkst false "" [(1, v)]); [apply in_quote; exists q4, ""; rewrite andb_false_r, sapp_nil_r; auto|]. rewrite seqs1. apply in_eol. auto.
Qed.
(** the text between two characters outside its class *)
Lemma end_fun_p p t d c t' d' c' : str_forall p c = true -> str_forall p c' = true -> p d = false -> p d' = false ->
  t +s+ String d c = t' +s+ String d' c' -> c = c'.
Proof.
  intros W W' D D' E. apply (f_equal str_rev) in E. rewrite !str_rev_append, !str_rev_cons, !sapp_assoc in E.
  assert (S : forall q e z, str_forall p q = true -> p e = false -> span p (str_rev q +s+ String e "" +s+ z) = (str_rev q, String e z)).
  { intros q e z Q N. apply span_unique; [now rewrite str_forall_rev|]. intros a b A. cbn in A. injection A as <- _. exact N. }
  pose proof (S c d (str_rev t) W D) as S1. rewrite E, (S c' d' (str_rev t') W' D') in S1. injection S1 as R _ _.
  rewrite <- (str_rev_involutive c), <- R. apply str_rev_involutive.
Qed.
Lemma last_char_inj a c b d : a +s+ String c "" = b +s+ String d "" -> a = b /\ c = d.
Proof.
  intros E. apply (f_equal str_rev) in E. rewrite !str_rev_append in E. cbn in E. injection E as -> E. split; [|reflexivity].
  rewrite <- (str_rev_involutive a), E. apply str_rev_involutive.
Qed.
Lemma version_shape l v : version_line l v -> version_text v /\ exists t d q, l = (t +s+ String d v) +s+ q /\ maybe quote q /\ version_char d = false.
Proof.
  intros (q1 & q2 & k & q3 & q4 & Q1 & Q2 & K & Q3 & Q4 & V & ->). split; [exact V|]. destruct Q3 as [->| ->].
  - exists ("  " +s+ q1 +s+ "version" +s+ q2 +s+ k), " "%char, q4. rewrite !sapp_assoc. auto.
  - exists ("  " +s+ q1 +s+ "version" +s+ q2 +s+ k +s+ " "), "034"%char, q4. rewrite !sapp_assoc. auto.
Qed.
Lemma version_fun l v w : version_line l v -> version_line l w -> v = w.
Proof.
  intros H H'. apply version_shape in H as ([N V] & t & d & q & -> & Q & D). apply version_shape in H' as ([N' V'] & t' & d' & q' & E & Q' & D').
  change (str_forall version_char v = true) in V. change (str_forall version_char w = true) in V'.
  assert (L : forall z, z <> "" -> str_forall version_char z = true -> exists y e, z = y +s+ String e "" /\ version_char e = true).
  { intros z Z F. destruct (str_rev_case z) as [->|(y & e & ->)]; [congruence|]. exists y, e. split; [reflexivity|]. rewrite str_forall_app in F. apply andb_true_iff in F as [_ F]. cbn in F. now rewrite andb_true_r in F. }
  destruct Q as [->| ->], Q' as [->| ->]; rewrite ?sapp_nil_r in E.
  - exact (end_fun_p _ _ _ _ _ _ _ V V' D D' E).
  - destruct (L v N V) as (y & e & -> & Y). change (String d (y +s+ String e "")) with (String d y +s+ String e "") in E. rewrite <- sapp_assoc in E.
    apply last_char_inj in E as [_ ->]. discriminate.
  - destruct (L w N' V') as (y & e & -> & Y). change (String d' (y +s+ String e "")) with (String d' y +s+ String e "") in E. rewrite <- (sapp_assoc t') in E.
    apply last_char_inj in E as [_ <-]. discriminate.
  - apply sapp_inj_r in E. exact (end_fun_p _ _ _ _ _ _ _ V V' D D' E).
Qed.
Lemma resolution_text r : str_forall resolution_char r = true <-> has_char " " r = false /\ has_char "'" r = false /\ has_char "034" r = false.
Proof.
  induction r as [|c r IH]; cbn; [tauto|]. rewrite andb_true_iff, IH. unfold resolution_char. rewrite negb_true_iff, !orb_false_iff, !(Ascii.eqb_sym c). tauto.
Qed.
Lemma in_kinds b v cs x : In x (ms (Alts [Lit "resolution:"; Lit "resolved"]) (mkst b v cs)) <-> exists k t, In k ["resolution:"; "resolved"] /\ v = k +s+ t /\ x = mkst false t cs.
Proof.
  cbn [Alts]. rewrite !in_alt, !in_lit. split.
  - intros [(t & -> & ->)|(t & -> & ->)]; eexists _, t; (split; [|split; reflexivity]); cbn; auto.
  - intros (h & t & H & -> & ->). destruct H as [<-|[<-|[]]]; [left|right]; eauto.
Qed.
Lemma resolution_sound l m : find re_yarn_resolution l = Some m -> resolution_line l (group m 1).
Proof.
  intros F. apply find_some in F as (u & v & x & -> & H & C & _). unfold group. rewrite C. clear C m. unfold re_yarn_resolution in H.
  step H y. apply in_bol in Y as [B ->]. destruct u; [|discriminate]. clear B. step H y. apply in_lit in Y as (t & -> & ->).
  step H y. apply in_quote in Y as (q1 & t1 & Q1 & -> & ->). step H y. apply in_kinds in Y as (k & t2 & K & -> & ->).
  step H y. apply in_quote in Y as (q2 & t3 & Q2 & -> & ->). step H y. apply in_lit in Y as (t5 & -> & ->). step H y. apply in_cap_plus in Y as (w & t7 & N & W & -> & ->).
  step H y. apply in_chr in Y as (t8 & -> & ->). rewrite seqs1 in H. apply in_eol in H as [E ->]. cbn [st_rest] in E. subst t8. cbn [st_caps cap_of Nat.eqb].
  apply resolution_text in W as (W1 & W2 & W3). exists q1, q2, k. repeat split; auto.
Qed.
Lemma resolution_complete l v : resolution_line l v -> find re_yarn_resolution l <> None.
Proof.
  intros (q1 & q2 & k & Q1 & Q2 & K & N & W1 & W2 & W3 & ->) F. rewrite find_none in F.
  assert (W : str_forall resolution_char v = true) by (apply resolution_text; auto).
  apply (F "" _ (mkst false "" [(1, v)]) eq_refl). unfold re_yarn_resolution.
  go (mkst true ("  " +s+ q1 +s+ k +s+ q2 +s+ " " +s+ quote +s+ v +s+ quote) []); [apply in_bol; auto|].
  go (mkst false (q1 +s+ k +s+ q2 +s+ " " +s+ quote +s+ v +s+ quote) []); [apply in_lit; eexists; split; reflexivity|].
  go (mkst false (k +s+ q2 +s+ " " +s+ quote +s+ v +s+ quote) []); [apply in_quote; exists q1; eexists; rewrite andb_false_r; auto|].
  go (mkst false (q2 +s+ " " +s+ quote +s+ v +s+ quote) []); [apply in_kinds; eauto|].
  go (mkst false (" " +s+ quote +s+ v +s+ quote) []); [apply in_quote; exists q2; eexists; rewrite andb_false_r; auto|].
  go (mkst false (v +s+ quote) []); [apply in_lit; eexists; split; reflexivity|].
  go (mkst false quote [(1, v)]); [apply in_cap_plus; exists v, quote; auto|].
  go (mkst false "" [(1, v)]); [apply in_chr; eexists; split; reflexivity|]. rewrite seqs1. apply in_eol. auto.
Qed.
Lemma first_group_in (P : string -> string -> Prop) r g : (forall l m, find r l = Some m -> P l (group m 1)) -> (forall l v, P l v -> find r l <> None) -> first_in P g (first_group r g).
Proof.
  intros S C. induction g as [|l g IH]; cbn; [constructor|]. destruct (find r l) as [m|] eqn:F; [apply fi_here; auto|]. apply fi_later; [|exact IH]. intros w W. now apply C in W.
Qed.
Lemma skipped_iff h : seqb h "__metadata:" || has_suffix h "@workspace:."":" = true <-> skipped h.
Proof.
  unfold skipped. rewrite orb_true_iff. split.
  - intros [H|H]; [left; now destruct (seqb_spec h "__metadata:")|right]. unfold has_suffix in H. destruct (strip_suffix _ h) as [t|] eqn:E; [|discriminate]. apply strip_suffix_some in E. now exists t.
  - intros [->|(q & ->)]; [now left|right]. unfold has_suffix. change ("@workspace:." +s+ quote +s+ ":") with "@workspace:."":". now rewrite strip_suffix_app.
Qed.
Lemma package_group url h t : exists p, parse_package_group url (h :: t) = Ok p /\ block_package url (h :: t) p.
Proof.
  eexists. split; [reflexivity|]. do 5 eexists. split; [reflexivity|]. split; [apply (first_group_in version_line); [exact version_sound|exact version_complete]|].
  split; [apply (first_group_in resolution_line); [exact resolution_sound|exact resolution_complete]|]. split; [apply extract_spec|]. cbn [p_version p_commit p_eco p_cmp p_name]. repeat split; auto.
  intros n N. now apply header_extract.
Qed.
Lemma yarn_packages_make url bs : Forall (fun b => b <> []) bs -> exists ps, yarn_packages url bs = Ok ps /\ makes (block_makes url) bs ps.
Proof.
  intros F. induction F as [|b bs N F (ps & E & M)]; [exists []; split; [reflexivity|constructor]|]. destruct b as [|h t]; [congruence|]. cbn [yarn_packages].
  destruct (seqb h "__metadata:" || has_suffix h "@workspace:."":") eqn:S.
  - apply skipped_iff in S. exists ps. split; [exact E|]. apply mk_none; [|exact M]. exists h, t. auto.
  - assert (NS : ~ skipped h) by (intros H; apply skipped_iff in H; congruence). destruct (package_group url h t) as (p & G & P). rewrite E. unfold rbind at 1. cbn [parse_package_group rbind] in G |- *. injection G as G. exists (p :: ps). rewrite <- G. split; [reflexivity|]. rewrite G.
    apply mk_some; [|exact M]. exists h, t. split; [reflexivity|]. right. eauto.
Qed.
Lemma yarn_lock files url path ls bs : file_lines files path ls -> yarn_blocks ls bs ->
  exists ps, parse_yarn_lock files url path = (Ok (inr ps), map p_name (filter (fun p => seqb (p_version p) "") ps)) /\ makes (block_makes url) bs ps.
Proof.
  intros (c & F & S) B. apply blocks_fun in B as ->. destruct (group_blocks ls) as [_ N _ _]. destruct (yarn_packages_make url _ N) as (ps & E & M).
  exists ps. split; [|exact M]. unfold parse_yarn_lock. rewrite F, S. cbn [orb]. rewrite E. f_equal. clear. induction ps as [|p ps IH]; [reflexivity|]. cbn. unfold complaint at 1.
  destruct (seqb (p_version p) ""); cbn; now rewrite IH.
Qed.
Lemma yarn_name_steps str f : String.length str < f -> yarn_name_fuel f str = extract_yarn_package_name str.
Proof. intros H. apply yarn_fuel; lia. Qed.
Lemma blocks_exist ls : exists bs, yarn_blocks ls bs /\ forall bs', yarn_blocks ls bs' -> bs' = bs.
Proof. exists (group_package_lines ls). split; [apply group_blocks|apply blocks_fun]. Qed.
Lemma resolution_fun l v w : resolution_line l v -> resolution_line l w -> v = w.
Proof.
  assert (S : forall v, resolution_line l v -> str_forall resolution_char v = true /\ exists t, l = (t +s+ String "034" v) +s+ quote).
  { intros x (q1 & q2 & k & _ & _ & _ & _ & A & B & C & ->). split; [now apply resolution_text|]. exists ("  " +s+ q1 +s+ k +s+ q2 +s+ " "). rewrite !sapp_assoc. reflexivity. }
  intros H H'. apply S in H as (V & t & ->). apply S in H' as (W & t' & E). apply sapp_inj_r in E. refine (end_fun_p resolution_char _ _ _ _ _ _ V W _ _ E); reflexivity.
Qed.
Lemma yarn_unread files url path : (forall ls, ~ file_lines files path ls) -> exists e, parse_yarn_lock files url path = (fails_with e, []).
Proof.
  intros H. unfold parse_yarn_lock. destruct (files path) as [|c b] eqn:F; [eauto|]. destruct (scan c) as [ls long] eqn:S. destruct (long || b) eqn:B; [eauto|].
  exfalso. apply orb_false_iff in B as [-> ->]. apply (H ls). now exists c.
Qed.
