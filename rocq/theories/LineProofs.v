From Verif Require Import GoStr GoStrFacts Types Regex RegexFacts RegexIn Scan Ecosystems LockIO CommitSpec CommitProofs LockSpec ListLocksProofs YarnSpec LineLocks LineSpec.
Local Open Scope string_scope.
Local Open Scope nat_scope.

(** ** the loop *)
Lemma line_lock files line path ls (R : string -> option Pkg -> Prop) : file_lines files path ls -> (forall l, R l (fst (line l))) ->
  exists ps, line_parser files line path = (Ok (inr ps), flat_map (fun l => snd (line l)) ls) /\ makes R ls ps.
Proof.
  intros (content & F & S) H. unfold line_parser. rewrite F, S. cbn [orb]. eexists. split; [reflexivity|].
  clear F S. induction ls as [|l ls IH]; cbn [flat_map]; [constructor|]. specialize (H l) as Hl. destruct (fst (line l)); [now apply mk_some|now apply mk_none].
Qed.
Lemma line_fails files line path : (forall ls, ~ file_lines files path ls) ->
  exists said, line_parser files line path = (fails_with (match files path with Gone => FRead path | _ => FScan path end), said).
Proof.
  intros N. unfold line_parser. destruct (files path) as [|content fails] eqn:F; [eauto|]. destruct (scan content) as [ls e] eqn:S.
  destruct (e || fails) eqn:E; [eauto|]. apply orb_false_iff in E as [-> ->]. destruct (N ls). exists content. auto.
Qed.
(** ** gradle *)
Lemma gradle_skip_iff t : is_not_gradle_line t = true <-> gradle_skip t.
Proof. unfold is_not_gradle_line, gradle_skip. now rewrite orb_true_iff, !has_prefix_iff. Qed.
Lemma split3_three c s a b r : split3 c s = [a; b; r] <-> has_char c a = false /\ has_char c b = false /\ s = a +s+ String c (b +s+ String c r).
Proof.
  unfold split3. split.
  - destruct (cut_at _ s) as [[x y]|] eqn:E; [|discriminate]. apply cut_at_char in E as [-> A]. destruct (cut_at _ y) as [[z w]|] eqn:E; [|discriminate]. apply cut_at_char in E as [-> B].
    intros H. injection H as <- <- <-. auto.
  - intros (A & B & ->). pose proof (cut_char_found c a (b +s+ String c r) A) as C1. pose proof (cut_char_found c b r B) as C2. unfold cut in C1, C2.
    destruct (cut_at _ (a +s+ _)) as [[x y]|]; [|discriminate C1]. injection C1 as -> ->. destruct (cut_at _ (b +s+ _)) as [[z w]|]; [|discriminate C2]. injection C2 as -> ->. reflexivity.
Qed.
Lemma split3_cases c s : (exists a b r, split3 c s = [a; b; r]) \/ (exists x, split3 c s = [x]) \/ exists x y, split3 c s = [x; y].
Proof. unfold split3. destruct (cut_at _ s) as [[x y]|]; [|eauto]. destruct (cut_at _ y) as [[z w]|]; eauto 6. Qed.
Lemma cut_eq v : has_char "=" (cut_before v "=") = false /\ exists c, (c = "" \/ exists r, c = "=" +s+ r) /\ v = cut_before v "=" +s+ c.
Proof.
  unfold cut_before, cut. destruct (cut_at "=" v) as [[b a]|] eqn:E; cbn [fst].
  - apply cut_at_char in E as [-> B]. split; [exact B|]. exists ("=" +s+ a). eauto.
  - apply cut_at_char_none in E. split; [exact E|]. exists "". rewrite sapp_nil_r. auto.
Qed.
Lemma cut_eq_of v c : has_char "=" v = false -> (c = "" \/ exists r, c = "=" +s+ r) -> cut_before (v +s+ c) "=" = v.
Proof. intros V [->|(r & ->)]; unfold cut_before; [now rewrite sapp_nil_r, cut_char_absent|]. change ("=" +s+ r) with (String "=" r). now rewrite cut_char_found. Qed.
Lemma parse_gradle_iff t p : parse_gradle_line t = inr p <-> exists g a v, coordinates t g a v /\ p = plain_pkg (g +s+ ":" +s+ a) v "Maven".
Proof.
  unfold parse_gradle_line. split.
  - destruct (split3_cases ":" t) as [(g & a & r & E)|[(x & ->)|(x & y & ->)]]; [rewrite E|discriminate|discriminate]. intros H. injection H as <-. apply split3_three in E as (A & B & ->).
    destruct (cut_eq r) as (V & c & C & E). exists g, a, (cut_before r "="). split; [|reflexivity]. repeat split; auto. exists c. split; [exact C|]. now rewrite <- E.
  - intros (g & a & v & (G & A & V & c & C & ->) & ->). replace (split3 ":" _) with [g; a; v +s+ c]; [now rewrite cut_eq_of|]. symmetry. apply split3_three. auto.
Qed.
Lemma gradle_line_ok l : gradle_makes l (fst (gradle_line l)).
Proof.
  unfold gradle_line. destruct (is_not_gradle_line _) eqn:S.
  - left. split; [|reflexivity]. left. now apply gradle_skip_iff.
  - assert (N : ~ gradle_skip (trim_space l)) by (rewrite <- gradle_skip_iff, S; discriminate). destruct (parse_gradle_line _) as [e|p] eqn:P; cbn [fst].
    + left. split; [|reflexivity]. right. split; [exact N|]. intros g a v C. assert (parse_gradle_line (trim_space l) = inr (plain_pkg (g +s+ ":" +s+ a) v "Maven")) by (apply parse_gradle_iff; eauto). congruence.
    + right. split; [exact N|]. apply parse_gradle_iff in P as (g & a & v & C & ->). eauto.
Qed.
Lemma gradle_bad_text t e : parse_gradle_line t = inl e -> e = "invalid line in gradle lockfile: " +s+ t.
Proof. unfold parse_gradle_line. destruct (split3_cases ":" t) as [(g & a & r & ->)|[(x & ->)|(x & y & ->)]]; [discriminate| |]; congruence. Qed.
Lemma gradle_line_said l : snd (gradle_line l) = (if is_not_gradle_line (trim_space l) then [] else match parse_gradle_line (trim_space l) with inl e => ["skipping " +s+ e] | inr _ => [] end).
Proof. unfold gradle_line. destruct (is_not_gradle_line _); [reflexivity|]. now destruct (parse_gradle_line _). Qed.
Lemma said_kept {A} (P : A -> Prop) (f : A -> string) (g : A -> list string) : (forall a, P a -> g a = [f a]) -> (forall a, ~ P a -> g a = []) -> (forall a, P a \/ ~ P a) ->
  forall l, kept P f l (flat_map g l).
Proof.
  intros H1 H2 D l. induction l as [|a l IH]; cbn [flat_map]; [constructor|]. destruct (D a) as [Y|N]; [rewrite (H1 a Y)|rewrite (H2 a N)]; now constructor.
Qed.
Lemma gradle_said ls : kept (fun l => gradle_bad (trim_space l)) (fun l => "skipping invalid line in gradle lockfile: " +s+ trim_space l) ls (flat_map (fun l => snd (gradle_line l)) ls).
Proof.
  assert (D : forall l, snd (gradle_line l) = ["skipping invalid line in gradle lockfile: " +s+ trim_space l] /\ gradle_bad (trim_space l) \/ snd (gradle_line l) = [] /\ ~ gradle_bad (trim_space l)).
  { intros l. rewrite gradle_line_said. destruct (is_not_gradle_line _) eqn:S; [right; split; [reflexivity|intros [N _]; now apply N, gradle_skip_iff]|].
    assert (N : ~ gradle_skip (trim_space l)) by (rewrite <- gradle_skip_iff, S; discriminate). destruct (parse_gradle_line _) as [e|p] eqn:P.
    - left. split; [now rewrite (gradle_bad_text _ _ P)|]. split; [exact N|]. intros g a v C. assert (parse_gradle_line (trim_space l) = inr (plain_pkg (g +s+ ":" +s+ a) v "Maven")) by (apply parse_gradle_iff; eauto). congruence.
    - right. split; [reflexivity|]. intros [_ B]. apply parse_gradle_iff in P as (g & a & v & C & _). exact (B _ _ _ C). }
  apply said_kept; intros l; destruct (D l) as [[E B]|[E B]]; auto; intros H; contradiction.
Qed.
Lemma gradle_lock files path ls : file_lines files path ls ->
  exists ps said, parse_gradle_lock files path = (Ok (inr ps), said) /\ makes gradle_makes ls ps
    /\ kept (fun l => gradle_bad (trim_space l)) (fun l => "skipping invalid line in gradle lockfile: " +s+ trim_space l) ls said.
Proof. intros F. destruct (line_lock files gradle_line path ls _ F gradle_line_ok) as (ps & E & M). exists ps. eexists. split; [exact E|]. split; [exact M|apply gradle_said]. Qed.
Lemma coordinates_fun t g a v g' a' v' : coordinates t g a v -> coordinates t g' a' v' -> g = g' /\ a = a' /\ v = v'.
Proof.
  intros (G & A & V & c & C & E) (G' & A' & V' & c' & C' & E').
  assert (split3 ":" t = [g; a; v +s+ c]) as H by (apply split3_three; auto). assert (split3 ":" t = [g'; a'; v' +s+ c']) as H' by (apply split3_three; auto).
  rewrite H in H'. injection H' as <- <- W. repeat split. apply (f_equal (fun s => cut_before s "=")) in W. now rewrite !cut_eq_of in W.
Qed.
Lemma gradle_makes_fun l o o' : gradle_makes l o -> gradle_makes l o' -> o = o'.
Proof.
  intros [[S ->]|(N & g & a & v & C & ->)] [[S' ->]|(N' & g' & a' & v' & C' & ->)]; [reflexivity| | |].
  - destruct S as [S|[_ S]]; [contradiction|]. destruct (S _ _ _ C').
  - destruct S' as [S|[_ S]]; [contradiction|]. destruct (S _ _ _ C).
  - destruct (coordinates_fun _ _ _ _ _ _ _ C C') as (-> & -> & ->). reflexivity.
Qed.
(** ** mix *)
Lemma fields_spec s fs : comma_fields s fs -> fields_char "," s = fs.
Proof.
  induction 1 as [|s fs C IH|f N F|f s fs N F C IH]; unfold fields_char in *; [reflexivity| | |].
  - exact IH.
  - rewrite split_char_nochar by exact F. cbn. apply seqb_neq in N. now rewrite N.
  - change ("," +s+ s) with (String "," s). rewrite split_char_app by exact F. cbn. apply seqb_neq in N. rewrite N. cbn. now rewrite IH.
Qed.
Lemma split_fields l : Forall (fun x => has_char "," x = false) l -> comma_fields (join "," l) (filter (fun f => negb (seqb f "")) l).
Proof.
  induction 1 as [|x l X F IH]; [constructor|]. cbn [filter]. destruct l as [|y l].
  - cbn. destruct (seqb_spec x "") as [->|N]; [constructor|now apply cf_last].
  - change (join "," (x :: y :: l)) with (x +s+ "," +s+ join "," (y :: l)). destruct (seqb_spec x "") as [->|N]; cbn [negb]; [now apply cf_comma|now apply cf_cons].
Qed.
Lemma fields_ok s : comma_fields s (fields_char "," s).
Proof. unfold fields_char. rewrite <- (join_split_char "," s) at 1. apply split_fields, split_char_pieces. Qed.
Lemma mix_in u v x : In x (ms re_mix (mkst (starts u) v [])) -> u = "" /\ exists name, mix_dep v name /\ st_caps x = [(1, name)].
Proof.
  intros H. unfold re_mix in H. step H y. apply in_bol in Y as [B ->]. destruct u; [|discriminate]. clear B. split; [reflexivity|].
  step H y. apply in_plus in Y as (sp & t & N & S & -> & ->). step H y. apply in_chr in Y as (t1 & -> & ->). step H y. apply in_cap_plus in Y as (w & t2 & NW & W & -> & ->).
  step H y. apply in_lit in Y as (t3 & -> & ->). step H y. apply in_plus in Y as (z & t4 & NX & X & -> & ->). step H y. apply in_chr in Y as (t5 & -> & ->). rewrite seqs1 in H. apply in_eol in H as [E ->].
  cbn in E. subst t5. exists w. split; [|reflexivity]. exists sp, z. split; [exact N|]. split; [|split; [split; auto|split; [split; auto|]]].
  - revert S. apply str_forall_impl. intros c. now rewrite Ascii.eqb_sym.
  - reflexivity.
Qed.
Lemma mix_find v name : mix_dep v name -> find re_mix v <> None.
Proof.
  intros (sp & z & N & S & [NW W] & [NX X] & ->) F. rewrite find_none in F. refine (F "" _ (mkst false "" [(1, name)]) eq_refl _). unfold re_mix.
  assert (S' : str_forall (fun d => Ascii.eqb " " d) sp = true) by (revert S; apply str_forall_impl; intros c; now rewrite Ascii.eqb_sym).
  go (mkst true (sp +s+ quote +s+ name +s+ quote +s+ ": {" +s+ z +s+ ",") []); [now apply in_bol|].
  go (mkst false (quote +s+ name +s+ quote +s+ ": {" +s+ z +s+ ",") []); [apply in_plus; eauto 7|].
  go (mkst false (name +s+ quote +s+ ": {" +s+ z +s+ ",") []); [apply in_chr; eexists; split; reflexivity|].
  go (mkst false (quote +s+ ": {" +s+ z +s+ ",") [(1, name)]); [apply in_cap_plus; eauto 7|].
  go (mkst false (z +s+ ",") [(1, name)]); [apply in_lit; eexists; split; reflexivity|].
  go (mkst false "," [(1, name)]); [apply in_plus; eauto 7|]. go (mkst false "" [(1, name)]); [apply in_chr; eexists; split; reflexivity|]. rewrite seqs1. now apply in_eol.
Qed.
Lemma mix_name_fun l n m : mix_dep l n -> mix_dep l m -> n = m.
Proof.
  intros (sp & z & N & S & [NW W] & _ & ->) (sp' & z' & N' & S' & [NW' W'] & _ & E).
  assert (A : span (fun c => Ascii.eqb c " ") (sp +s+ quote +s+ n +s+ quote +s+ ": {" +s+ z +s+ ",") = (sp, quote +s+ n +s+ quote +s+ ": {" +s+ z +s+ ",")) by (apply span_unique; [exact S|]; intros c t H; now injection H as <- _).
  rewrite E in A. rewrite span_unique in A; [|exact S'|intros c t H; now injection H as <- _]. injection A as _ A.
  change (m +s+ quote +s+ ": {" +s+ z' +s+ "," = n +s+ quote +s+ ": {" +s+ z +s+ ",") in A. assert (B : span is_word (n +s+ quote +s+ ": {" +s+ z +s+ ",") = (n, quote +s+ ": {" +s+ z +s+ ",")) by (apply span_unique; [exact W|]; intros c t H; now injection H as <- _).
  rewrite <- A in B. rewrite span_unique in B; [|exact W'|intros c t H; now injection H as <- _]. now injection B as <- _.
Qed.
Lemma mix_cases l : match find re_mix l with None => forall n, ~ mix_dep l n | Some m => mix_dep l (group m 1) end.
Proof.
  destruct (find re_mix l) as [m|] eqn:F.
  - apply find_some in F as (u & v & x & -> & H & C & _). apply mix_in in H as (-> & n & D & X). unfold group. rewrite C, X. exact D.
  - intros n D. exact (mix_find _ _ D F).
Qed.
Lemma unquoted_iff s v : unquoted s v <-> v = trim_one_quote (trim_space s).
Proof.
  unfold unquoted, trim_one_quote. change (String dquote "") with quote. split.
  - intros (u & [->|[E N]] & [->|[-> M]]); rewrite ?trim_prefix_app, ?trim_suffix_app; [reflexivity| | |].
    + unfold trim_suffix. destruct (strip_suffix quote v) eqn:S; [|reflexivity]. apply strip_suffix_some in S. destruct (M _ S).
    + rewrite E, trim_prefix_no, trim_suffix_app; [reflexivity|]. now apply has_prefix_false.
    + rewrite E, trim_prefix_no; [|now apply has_prefix_false]. unfold trim_suffix. destruct (strip_suffix quote v) eqn:S; [|reflexivity]. apply strip_suffix_some in S. destruct (M _ S).
  - intros ->. exists (trim_prefix (trim_space s) quote). split.
    + unfold trim_prefix. destruct (strip_prefix quote (trim_space s)) eqn:S; [left; now apply strip_prefix_some|]. right. split; [reflexivity|]. now apply strip_prefix_none.
    + generalize (trim_prefix (trim_space s) quote). intros u. unfold trim_suffix. destruct (strip_suffix quote u) eqn:S; [left; now apply strip_suffix_some|]. right. split; [reflexivity|]. now apply strip_suffix_none.
Qed.
Lemma mix_line_ok l : mix_makes l (fst (mix_line l)).
Proof.
  unfold mix_line. pose proof (mix_cases l) as C. destruct (find re_mix l) as [m|]; [|now constructor]. pose proof (fields_ok l) as F.
  destruct (fields_char "," l) as [|f0 [|f1 [|f2 [|f3 fs]]]]; try (apply mm_short; eexists _, _; repeat split; [exact C|exact F|cbn; lia]).
  destruct (has_suffix f0 ":git") eqn:G; cbn [fst].
  - apply has_suffix_iff in G. eapply mm_git; [exact C|exact F|exact G|]. now apply unquoted_iff.
  - eapply mm_dep; [exact C|exact F| |now apply unquoted_iff|now apply unquoted_iff]. intros p E. assert (has_suffix f0 ":git" = true) by (apply has_suffix_iff; eauto). congruence.
Qed.
Lemma mix_said ls : kept short_dep (fun _ => mix_complaint) ls (flat_map (fun l => snd (mix_line l)) ls).
Proof.
  assert (D : forall l, snd (mix_line l) = [mix_complaint] /\ short_dep l \/ snd (mix_line l) = [] /\ ~ short_dep l).
  { intros l. unfold mix_line. pose proof (mix_cases l) as C. destruct (find re_mix l) as [m|]; [|right; split; [reflexivity|]; intros (n & fs & D & _); exact (C _ D)]. pose proof (fields_ok l) as F.
    destruct (fields_char "," l) as [|f0 [|f1 [|f2 [|f3 fs]]]] eqn:E; try (left; split; [reflexivity|]; eexists _, _; repeat split; [exact C|exact F|cbn; lia]).
    right. split; [destruct (has_suffix f0 ":git"); reflexivity|]. intros (n & fs' & _ & F' & L). apply fields_spec in F'. rewrite E in F'. subst fs'. cbn in L. lia. }
  apply said_kept; intros l; destruct (D l) as [[E B]|[E B]]; auto; intros H; contradiction.
Qed.
Lemma mix_lock files path ls : file_lines files path ls ->
  exists ps said, parse_mix_lock files path = (Ok (inr ps), said) /\ makes mix_makes ls ps /\ kept short_dep (fun _ => mix_complaint) ls said.
Proof. intros F. destruct (line_lock files mix_line path ls _ F mix_line_ok) as (ps & E & M). exists ps. eexists. split; [exact E|]. split; [exact M|apply mix_said]. Qed.
Lemma mix_makes_fun l o o' : mix_makes l o -> mix_makes l o' -> o = o'.
Proof.
  assert (S : forall name fs, comma_fields l fs -> 4 <= List.length fs -> mix_dep l name -> short_dep l -> False).
  { intros name fs F L _ (n & fs' & _ & F' & L'). apply fields_spec in F, F'. subst. lia. }
  intros H H'. destruct H as [N|X|name f0 f1 f2 f3 fs c D F G U|name f0 f1 f2 f3 fs v c D F G U V], H' as [N'|X'|name' g0 g1 g2 g3 gs c' D' F' G' U'|name' g0 g1 g2 g3 gs v' c' D' F' G' U' V']; try reflexivity;
    try (destruct (N _ D')); try (destruct (N' _ D)); try (exfalso; eapply S; [exact F| |exact D|assumption]; cbn; lia); try (exfalso; eapply S; [exact F'| |exact D'|assumption]; cbn; lia);
    apply fields_spec in F, F'; rewrite F in F'; injection F' as <- <- <- <- <-; rewrite (mix_name_fun _ _ _ D D'); rewrite ?unquoted_iff in *; subst; try reflexivity.
  - destruct G as (p & G). destruct (G' _ G).
  - destruct G' as (p & G'). destruct (G _ G').
Qed.
