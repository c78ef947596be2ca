(** The requirements parser follows the files reachable through includes. *)
From Verif Require Import GoStr GoStrFacts Types OsvSpec MemDB MemDBProofs GoMap Path Scan PkgMapSpec PkgMap Requirements RequirementsSpec ReqLines.

(** ** lines *)
Definition kind_of (line : string) : line_kind :=
  match strip_prefix "-r " line with
  | Some f => Include f
  | None => if is_not_requirement_line line then Nothing else Requires (parse_line line)
  end.
Lemma not_req_iff s : is_not_requirement_line s = true <-> skipped s.
Proof.
  unfold is_not_requirement_line, skipped. rewrite !orb_true_iff, !has_prefix_iff. split.
  - intros [[[[[H|(r & ->)]|(r & ->)]|(r & ->)]|(r & ->)]|(r & ->)].
    + left. destruct (seqb_spec s ""); congruence.
    + right. exists "-", r. cbn; auto.
    + right. exists "https://", r. cbn; auto.
    + right. exists "http://", r. cbn; auto.
    + right. exists ".", r. cbn; auto 6.
    + right. exists "/", r. cbn; auto 7.
  - intros [->|(p & r & P & ->)]; [auto 7|]. cbn in P. repeat destruct P as [<-|P]; eauto 8.
Qed.
Lemma skipped_not s : is_not_requirement_line s = false <-> ~ skipped s.
Proof. rewrite <- not_req_iff. destruct (is_not_requirement_line s); split; congruence. Qed.
Lemma line_is_kind s k : line_is s k <-> k = kind_of s.
Proof.
  unfold kind_of. split.
  - intros [f ->|N S|p N R].
    + now rewrite strip_prefix_app.
    + destruct (strip_prefix "-r " s) as [f|] eqn:P; [apply strip_prefix_some in P; now apply N in P|]. now apply not_req_iff in S as ->.
    + destruct (strip_prefix "-r " s) as [f|] eqn:P.
      * apply strip_prefix_some in P. destruct N. right. exists "-", ("r " +s+ f). split; [now left|exact P].
      * apply skipped_not in N as ->. f_equal. eapply requirement_fun; [exact R|apply parse_line_is].
  - intros ->. destruct (strip_prefix "-r " s) as [f|] eqn:P; [apply strip_prefix_some in P; now constructor|].
    destruct (is_not_requirement_line s) eqn:Q.
    + apply not_req_iff in Q. apply li_skip; [|exact Q]. intros f ->. rewrite strip_prefix_app in P. discriminate.
    + apply skipped_not in Q. constructor; [exact Q|apply parse_line_is].
Qed.
Lemma nl_free_char s : has_char "010" s = false <-> nl_free s.
Proof. rewrite has_char_str_forall. unfold nl_free. split; apply str_forall_impl; intros c; now rewrite Ascii.eqb_sym. Qed.
Lemma drop_cr_nl s : nl_free s -> nl_free (drop_cr s).
Proof. unfold drop_cr. destruct (strip_suffix _ s) as [t|] eqn:E; [|auto]. apply strip_suffix_some in E as ->. intros H. now apply nl_free_app in H. Qed.
Lemma scan_nl content : Forall nl_free (fst (scan content)).
Proof.
  unfold scan. assert (F : Forall nl_free (but_last (split_char "010" content))).
  { pose proof (split_char_pieces "010" content) as F. induction F as [|x l X F IH]; [constructor|]. cbn. apply nl_free_char in X.
    destruct l as [|y l]; [destruct (seqb x ""); [constructor|now repeat constructor]|now constructor]. }
  induction F as [|x l X F IH]; cbn; [constructor|]. destruct (N.leb max_token (str_len x)); [constructor|].
  destruct (scan_tokens l). constructor; [now apply drop_cr_nl|exact IH].
Qed.
Lemma joined_nl ts ls : joined ts ls -> Forall nl_free ts -> Forall nl_free ls.
Proof.
  induction 1 as [|t ts ls N J IH|p t ts ls C J IH|p C]; intros F; [constructor| | |].
  - inversion F; subst. constructor; auto.
  - inversion F as [|? ? P F']; subst. inversion F' as [|? ? T F'']; subst. apply IH. constructor; [|exact F'']. apply nl_free_app in P as [P _]. now apply nl_free_app.
  - inversion F as [|? ? P F']; subst. apply nl_free_app in P as [P _]. now constructor.
Qed.
Definition kinds (content : string) : list line_kind := map (fun line => kind_of (remove_comments line)) (logical (fst (scan content))).
Lemma says_kinds content ks : says content ks <-> ks = kinds content.
Proof.
  unfold says, kinds. split.
  - intros (ls & J & F). pose proof (joined_nl _ _ J (scan_nl content)) as N. apply joined_logical in J as ->.
    induction F as [|line k ls ks K F IH]; [reflexivity|]. inversion N; subst. cbn [map]. rewrite <- IH by auto. rewrite remove_comments_eq by auto. apply line_is_kind in K as ->. reflexivity.
  - intros ->. exists (logical (fst (scan content))). assert (J : joined (fst (scan content)) (logical (fst (scan content)))) by now apply joined_logical.
    split; [exact J|]. pose proof (joined_nl _ _ J (scan_nl content)) as N. clear J. induction N as [|line ls L N IH]; cbn [map]; [constructor|].
    constructor; [|exact IH]. rewrite remove_comments_eq by exact L. now apply line_is_kind.
Qed.

(** ** files *)
Section WithFiles.
Variable it : Iter.
Hypothesis IT : IterOk it.
Variable files : string -> txt.
Notation requires := (requires files). Notation includes := (includes files). Notation readable := (readable files). Notation reach := (reach files).
Notation parse_req := (parse_req it files).

Lemma line_of_kinds path content fails k : files path = Text content fails -> (line_of files path k <-> In k (kinds content)).
Proof.
  intros F. unfold line_of. split.
  - intros (c & e & ks & F' & S & I). apply says_kinds in S as ->. rewrite F in F'. injection F' as <- <-. exact I.
  - intros I. exists content, fails, (kinds content). split; [exact F|]. split; [now apply says_kinds|exact I].
Qed.
Lemma reach_trans a b c : reach a b -> reach b c -> reach a c.
Proof. intros H R. revert H. induction R as [|q r R IH I]; intros H; [exact H|]. apply (re_incl files a q); auto. Qed.

(** what a successful parse has done; [new]: the files it visited *)
Definition news (seen seen' : list string) (q : string) : Prop := In q seen' /\ ~ In q seen.
Record visited (seen seen' : list string) (ps : list Pkg) (q : string) : Prop := Vis {
  vi_readable : readable q;
  vi_owns : forall p, requires q p -> In (pkg_key p) (map pkg_key ps);
  vi_incl : forall r, includes q r -> In r seen' }.
Record parsed (path : string) (seen seen' : list string) (ps : list Pkg) : Prop := Par {
  pa_incl : incl seen seen';
  pa_nodup : NoDup (map pkg_key ps);
  pa_from : forall p, In p ps -> exists q, (q = path \/ news seen seen' q) /\ requires q p;
  pa_root : visited seen seen' ps path;
  pa_new : forall q, news seen seen' q -> visited seen seen' ps q;
  pa_reach : forall q, news seen seen' q -> reach path q }.
Record stepped (path : string) (ks : list line_kind) (seen seen' : list string) (ps : list Pkg) : Prop := Ste {
  st_incl : incl seen seen';
  st_from : forall p, In p ps -> In (Requires p) ks \/ exists q, news seen seen' q /\ requires q p;
  st_owns : forall p, In (Requires p) ks -> In (pkg_key p) (map pkg_key ps);
  st_includes : forall f, In (Include f) ks -> In (path_join [path_dir path; f]) seen';
  st_new : forall q, news seen seen' q -> visited seen seen' ps q;
  st_reach : forall q, news seen seen' q -> exists f, In (Include f) ks /\ reach (path_join [path_dir path; f]) q }.
Lemma visited_mono seen seen' ps s2 s2' ps' q : visited seen seen' ps q -> incl seen' s2' -> incl (map pkg_key ps) (map pkg_key ps') -> visited s2 s2' ps' q.
Proof. intros [R O I] S P. constructor; auto. Qed.
Lemma news_dec seen seen1 seen' q : news seen seen' q -> incl seen seen1 -> news seen seen1 q \/ news seen1 seen' q.
Proof. intros [I N] S. destruct (in_dec string_dec q seen1) as [J|J]; [left|right]; split; auto. Qed.
Lemma set_add_in x y l : In y (set_add x l) <-> y = x \/ In y l.
Proof. unfold set_add. destruct (mem x l) eqn:M; [|rewrite in_app_iff; cbn; intuition congruence]. apply mem_iff in M. split; [auto|]. intros [->|H]; auto. Qed.
Lemma req_steps rec path lines : (forall p seen ps seen', rec p seen = Some (inr ps, seen') -> parsed p seen seen' ps) ->
  forall m l0 seen m' seen', keyed pkg_key m l0 -> req_lines rec path lines m seen = Some (inr m', seen') ->
  exists l, keyed pkg_key m' (l0 ++ l) /\ stepped path (map (fun line => kind_of (remove_comments line)) lines) seen seen' l.
Proof.
  intros REC. induction lines as [|line lines IH]; intros m l0 seen m' seen' K H; cbn [req_lines map] in *.
  - injection H as <- <-. exists []. rewrite app_nil_r. split; [exact K|]. constructor; cbn; try tauto; [apply incl_refl| |]; intros q [Q N]; contradiction.
  - unfold cut_prefix in H. unfold kind_of at 1. destruct (strip_prefix "-r " (remove_comments line)) as [f|].
    + set (ar := path_join [path_dir path; f]) in *. destruct (mem ar seen) eqn:M.
      * apply mem_iff in M. destruct (IH _ _ _ _ _ K H) as (l & K' & [S1 S2 S3 S4 S5 S6]). exists l. split; [exact K'|]. constructor; auto.
        -- intros p P. destruct (S2 p P) as [A|A]; [left; now right|now right].
        -- intros p [E|P]; [discriminate|auto].
        -- intros g [E|P]; [injection E as <-; apply S1; exact M|auto].
        -- intros q Q. destruct (S6 q Q) as (g & G & R). exists g. split; [now right|exact R].
      * assert (NM : ~ In ar seen) by (intros X; apply mem_iff in X; congruence). clear M.
        destruct (rec ar (set_add ar seen)) as [[[e|details] seen1]|] eqn:RC; [discriminate| |discriminate].
        apply REC in RC as [P1 P2 P3 P4 P5 P6]. assert (K1 : keyed pkg_key (fold_left put_pkg details m) (l0 ++ details)) by now apply keyed_fold.
        destruct (IH _ _ _ _ _ K1 H) as (l & K' & [S1 S2 S3 S4 S5 S6]). exists (details ++ l). rewrite app_assoc. split; [exact K'|].
        assert (A1 : incl seen seen1) by (intros x X; apply P1, set_add_in; now right).
        assert (A2 : In ar seen1) by (apply P1, set_add_in; now left).
        assert (ML : incl (map pkg_key details) (map pkg_key (details ++ l))) by (rewrite map_app; apply incl_appl, incl_refl).
        assert (MR : incl (map pkg_key l) (map pkg_key (details ++ l))) by (rewrite map_app; apply incl_appr, incl_refl).
        assert (OLD : forall q, news seen seen1 q -> q = ar \/ news (set_add ar seen) seen1 q).
        { intros q [Q N]. destruct (string_dec q ar) as [E|E]; [now left|right]. split; [exact Q|]. rewrite set_add_in. tauto. }
        constructor.
        -- eapply incl_tran; eauto.
        -- intros p P. apply in_app_or in P as [P|P].
           ++ right. destruct (P3 p P) as (q & [->|[Q N]] & R); [exists ar|exists q]; (split; [|exact R]); split; auto. intros X. apply N, set_add_in. now right.
           ++ destruct (S2 p P) as [A|(q & [Q N] & R)]; [left; now right|]. right. exists q. split; [|exact R]. split; [exact Q|]. auto.
        -- intros p [E|P]; [discriminate|]. apply MR. auto.
        -- intros g [E|P]; [injection E as <-; apply S1; exact A2|auto].
        -- intros q Q. destruct (news_dec seen seen1 seen' q Q A1) as [Q'|Q'].
           ++ destruct (OLD q Q') as [->|Q'']; [exact (visited_mono _ _ _ _ _ _ _ P4 S1 ML)|exact (visited_mono _ _ _ _ _ _ _ (P5 q Q'') S1 ML)].
           ++ exact (visited_mono _ _ _ _ _ _ _ (S5 q Q') (incl_refl _) MR).
        -- intros q Q. destruct (news_dec seen seen1 seen' q Q A1) as [Q'|Q'].
           ++ exists f. split; [now left|]. destruct (OLD q Q') as [->|Q'']; [constructor|auto].
           ++ destruct (S6 q Q') as (g & G & R). exists g. split; [now right|exact R].
    + destruct (is_not_requirement_line (remove_comments line)) eqn:NR.
      * destruct (IH _ _ _ _ _ K H) as (l & K' & [S1 S2 S3 S4 S5 S6]). exists l. split; [exact K'|]. constructor; auto.
        -- intros p P. destruct (S2 p P) as [A|A]; [left; now right|now right].
        -- intros p [E|P]; [discriminate|auto].
        -- intros g [E|P]; [discriminate|auto].
        -- intros q Q. destruct (S6 q Q) as (g & G & R). exists g. split; [now right|exact R].
      * pose proof (keyed_put pkg_key m l0 (parse_line (remove_comments line)) K) as K1.
        destruct (IH _ _ _ _ _ K1 H) as (l & K' & [S1 S2 S3 S4 S5 S6]). exists (parse_line (remove_comments line) :: l).
        split; [rewrite <- app_assoc in K'; exact K'|]. constructor; auto.
        -- intros p [<-|P]; [left; now left|]. destruct (S2 p P) as [A|A]; [left; now right|now right].
        -- intros p [E|P]; [injection E as <-; now left|right; auto].
        -- intros g [E|P]; [discriminate|auto].
        -- intros q Q. apply (visited_mono _ _ _ _ _ _ _ (S5 q Q) (incl_refl _)). apply incl_tl, incl_refl.
        -- intros q Q. destruct (S6 q Q) as (g & G & R). exists g. split; [now right|exact R].
Qed.
Lemma parse_req_ok depth : forall path seen ps seen', parse_req depth path seen = Some (inr ps, seen') -> parsed path seen seen' ps.
Proof.
  induction depth as [|d IH]; intros path seen ps seen' H; [discriminate|]. cbn [Requirements.parse_req] in H.
  destruct (files path) as [|content fails] eqn:F; [discriminate|]. destruct (scan content) as [ts long] eqn:SC.
  destruct (req_lines (parse_req d) path (logical ts) [] seen) as [[[e|m] seen1]|] eqn:RL; [discriminate| |discriminate].
  destruct (long || fails) eqn:LF; [discriminate|]. injection H as <- <-. apply orb_false_iff in LF as [-> ->].
  destruct (req_steps _ _ _ IH _ _ _ _ _ (keyed_nil _) RL) as (l & K & [S1 S2 S3 S4 S5 S6]). cbn [app] in K.
  replace (map (fun line => kind_of (remove_comments line)) (logical ts)) with (kinds content) in * by (unfold kinds; now rewrite SC).
  pose proof (keyed_slice it pkg_key m l IT K) as [O1 O2 O3].
  assert (ML : incl (map pkg_key l) (map pkg_key (map_to_slice it m))). { intros k Q. apply in_map_iff in Q as (p & <- & P). auto. }
  constructor; auto.
  - intros p P. apply O2 in P. destruct (S2 p P) as [A|(q & Q & R)]; [exists path|exists q]; (split; [auto|]); [|exact R].
    now apply (line_of_kinds _ _ _ _ F).
  - constructor.
    + exists content. split; [exact F|now rewrite SC].
    + intros p P. apply (line_of_kinds _ _ _ _ F) in P. apply ML. auto.
    + intros r (f & I & ->). apply (line_of_kinds _ _ _ _ F) in I. auto.
  - intros q Q. exact (visited_mono _ _ _ _ _ _ _ (S5 q Q) (incl_refl _) ML).
  - intros q Q. destruct (S6 q Q) as (f & I & R). eapply reach_trans; [|exact R]. eapply re_incl; [constructor|].
    exists f. split; [now apply (line_of_kinds _ _ _ _ F)|reflexivity].
Qed.

(** ** errors *)
Lemma req_lines_err rec path lines : (forall p seen e seen', rec p seen = Some (inl e, seen') -> exists q, reach p q /\ ~ readable q) ->
  forall m seen e seen', req_lines rec path lines m seen = Some (inl e, seen') ->
  exists f q, In (Include f) (map (fun line => kind_of (remove_comments line)) lines) /\ reach (path_join [path_dir path; f]) q /\ ~ readable q.
Proof.
  intros REC. induction lines as [|line lines IH]; intros m seen e seen' H; cbn [req_lines map] in *; [discriminate|].
  assert (T : forall m seen e seen', req_lines rec path lines m seen = Some (inl e, seen') -> exists f q,
    In (Include f) (kind_of (remove_comments line) :: map (fun line => kind_of (remove_comments line)) lines) /\ reach (path_join [path_dir path; f]) q /\ ~ readable q).
  { intros m1 s1 e1 s1' H1. destruct (IH _ _ _ _ H1) as (f & q & I & R). exists f, q. split; [now right|exact R]. }
  unfold cut_prefix in H. destruct (strip_prefix "-r " (remove_comments line)) as [f|] eqn:P.
  - destruct (mem (path_join [path_dir path; f]) seen); [eapply T; exact H|].
    destruct (rec _ _) as [[[e1|details] seen1]|] eqn:RC; [|eapply T; exact H|discriminate].
    apply REC in RC as (q & R & N). exists f, q. split; [|auto]. left. unfold kind_of. now rewrite P.
  - destruct (is_not_requirement_line (remove_comments line)); eapply T; exact H.
Qed.
Lemma parse_req_err depth : forall path seen e seen', parse_req depth path seen = Some (inl e, seen') -> exists q, reach path q /\ ~ readable q.
Proof.
  induction depth as [|d IH]; intros path seen e seen' H; [discriminate|]. cbn [Requirements.parse_req] in H.
  destruct (files path) as [|content fails] eqn:F; [exists path; split; [constructor|]; intros (c & C & _); congruence|].
  destruct (scan content) as [ts long] eqn:SC.
  destruct (req_lines (parse_req d) path (logical ts) [] seen) as [[[e1|m] seen1]|] eqn:RL; [| |discriminate].
  - destruct (req_lines_err _ _ _ IH _ _ _ _ RL) as (f & q & I & R & N). exists q. split; [|exact N]. eapply reach_trans; [|exact R].
    eapply re_incl; [constructor|]. exists f. split; [|reflexivity]. apply (line_of_kinds _ _ _ _ F). unfold kinds. now rewrite SC.
  - destruct (long || fails) eqn:LF; [|discriminate]. exists path. split; [constructor|]. intros (c & C & S). rewrite F in C. injection C as <- ->.
    rewrite SC in S. cbn in S. subst. discriminate.
Qed.

(** ** depth *)
Lemma req_lines_mono (rec rec' : string -> list string -> req_out) path lines : (forall p seen x, rec p seen = Some x -> rec' p seen = Some x) ->
  forall m seen x, req_lines rec path lines m seen = Some x -> req_lines rec' path lines m seen = Some x.
Proof.
  intros REC. induction lines as [|line lines IH]; intros m seen x H; cbn [req_lines] in *; [exact H|].
  destruct (cut_prefix (remove_comments line) "-r ") as [ar ok]. destruct ok.
  - destruct (mem _ seen); [auto|]. destruct (rec _ _) as [[[e1|details] seen1]|] eqn:RC; [| |discriminate]; rewrite (REC _ _ _ RC); auto.
  - destruct (is_not_requirement_line _); auto.
Qed.
Lemma parse_req_mono d : forall d' path seen x, d <= d' -> parse_req d path seen = Some x -> parse_req d' path seen = Some x.
Proof.
  induction d as [|d IH]; intros d' path seen x L H; [discriminate|]. destruct d' as [|d']; [lia|]. cbn [Requirements.parse_req] in *.
  destruct (files path) as [|content fails]; [exact H|]. destruct (scan content) as [ts long].
  destruct (req_lines (parse_req d) path (logical ts) [] seen) as [[[e1|m] seen1]|] eqn:RL; [| |discriminate];
    rewrite (req_lines_mono _ (parse_req d') _ _ (fun p s y => IH d' p s y ltac:(lia)) _ _ _ RL); exact H.
Qed.
Lemma req_lines_incl rec path lines : (forall p seen x seen', rec p seen = Some (x, seen') -> incl seen seen') ->
  forall m seen x seen', req_lines rec path lines m seen = Some (x, seen') -> incl seen seen'.
Proof.
  intros REC. induction lines as [|line lines IH]; intros m seen x seen' H; cbn [req_lines] in *; [injection H as _ <-; apply incl_refl|].
  destruct (cut_prefix (remove_comments line) "-r ") as [ar ok]. destruct ok.
  - destruct (mem _ seen); [eauto|]. destruct (rec _ _) as [[[e1|details] seen1]|] eqn:RC; [| |discriminate]; apply REC in RC.
    + injection H as _ <-. intros y Y. apply RC, set_add_in. now right.
    + apply IH in H. intros y Y. apply H, RC, set_add_in. now right.
  - destruct (is_not_requirement_line _); eauto.
Qed.
Lemma parse_req_incl d : forall path seen x seen', parse_req d path seen = Some (x, seen') -> incl seen seen'.
Proof.
  induction d as [|d IH]; intros path seen x seen' H; [discriminate|]. cbn [Requirements.parse_req] in *.
  destruct (files path) as [|content fails]; [injection H as _ <-; apply incl_refl|]. destruct (scan content) as [ts long].
  destruct (req_lines (parse_req d) path (logical ts) [] seen) as [[[e1|m] seen1]|] eqn:RL; [| |discriminate];
    apply (req_lines_incl _ _ _ IH) in RL; [|destruct (long || fails)]; injection H as _ <-; exact RL.
Qed.
Section Finite.
Variable D : list string.
Hypothesis FIN : forall p, files p <> Gone -> In p D.
Definition unseen (seen : list string) : nat := List.length (filter (fun p => negb (mem p seen)) D).
Lemma filter_le {A} (f g : A -> bool) l : (forall x, f x = true -> g x = true) -> List.length (filter f l) <= List.length (filter g l).
Proof. intros H. induction l as [|a l IH]; cbn; [lia|]. specialize (H a). destruct (f a); [rewrite H by reflexivity; cbn; lia|destruct (g a); cbn; lia]. Qed.
Lemma filter_lt {A} (f g : A -> bool) l x : (forall x, f x = true -> g x = true) -> In x l -> f x = false -> g x = true -> List.length (filter f l) < List.length (filter g l).
Proof.
  intros H I F G. induction l as [|a l IH]; cbn; [destruct I|]. destruct I as [->|I].
  - rewrite F, G. cbn. pose proof (filter_le f g l H). lia.
  - specialize (IH I). pose proof (H a). destruct (f a); [rewrite H0 by reflexivity; cbn; lia|destruct (g a); cbn; lia].
Qed.
Lemma filter_len_le {A} (f : A -> bool) l : List.length (filter f l) <= List.length l.
Proof. induction l as [|a l IH]; cbn; [lia|]. destruct (f a); cbn; lia. Qed.
Lemma unseen_incl s s' : incl s s' -> unseen s' <= unseen s.
Proof. intros I. apply filter_le. intros x X. apply negb_true_iff in X. apply negb_true_iff. apply mem_false. apply mem_false in X. auto. Qed.
Lemma unseen_add s p : In p D -> ~ In p s -> unseen (set_add p s) < unseen s.
Proof.
  intros I N. apply (filter_lt _ _ D p); auto.
  - intros x X. apply negb_true_iff in X. apply negb_true_iff. apply mem_false. apply mem_false in X. intros Y. apply X, set_add_in. now right.
  - apply negb_false_iff, mem_iff, set_add_in. now left.
  - now apply negb_true_iff, mem_false.
Qed.
Lemma parse_req_ends d : forall path seen, unseen seen + 2 <= d -> parse_req d path seen <> None.
Proof.
  induction d as [|d IH]; intros path seen L; [lia|]. cbn [Requirements.parse_req]. destruct (files path) as [|content fails]; [discriminate|]. destruct (scan content) as [ts long].
  assert (T : forall lines m s, unseen s + 1 <= d -> req_lines (parse_req d) path lines m s <> None).
  { induction lines as [|line lines IHL]; intros m s U; cbn [req_lines]; [discriminate|].
    destruct (cut_prefix (remove_comments line) "-r ") as [ar ok]. destruct ok.
    - destruct (mem _ s) eqn:M; [auto|]. set (a := path_join [path_dir path; ar]) in *. apply mem_false in M.
      assert (Q : parse_req d a (set_add a s) <> None).
      { destruct (files a) as [|c e] eqn:FA.
        - destruct d as [|d']; [lia|]. cbn [Requirements.parse_req]. rewrite FA. discriminate.
        - apply IH. pose proof (unseen_add s a (FIN a ltac:(congruence)) M). lia. }
      destruct (parse_req d a (set_add a s)) as [[[e|details] s1]|] eqn:PR; [discriminate| |contradiction].
      apply IHL. apply parse_req_incl in PR. assert (incl s s1) as I by (intros y Y; apply PR, set_add_in; now right). pose proof (unseen_incl _ _ I). lia.
    - destruct (is_not_requirement_line _); auto. }
  specialize (T (logical ts) [] seen ltac:(lia)). destruct (req_lines (parse_req d) path (logical ts) [] seen) as [[[e|m] s1]|]; [discriminate| |contradiction]. now destruct (long || fails).
Qed.
Lemma parse_ends path : exists x, forall d, List.length D + 2 <= d -> parse_requirements_txt it files d path = Some x.
Proof.
  assert (U : unseen [] <= List.length D) by apply filter_len_le.
  destruct (parse_req (List.length D + 2) path []) as [[x s]|] eqn:P; [|exfalso; revert P; apply parse_req_ends; lia].
  exists x. intros d L. unfold parse_requirements_txt. now rewrite (parse_req_mono _ d _ _ _ L P).
Qed.
End Finite.

(** ** the result *)
Lemma closed path s ps : parsed path [] s ps -> forall q, reach path q -> visited [] s ps q.
Proof.
  intros [P1 P2 P3 P4 P5 P6] q R. induction R as [|q r R IH I]; [exact P4|]. apply P5. split; [|tauto]. now apply (vi_incl _ _ _ _ IH).
Qed.
Lemma parse_ok d path ps : parse_requirements_txt it files d path = Some (inr ps) ->
  (forall q, reach path q -> readable q) /\ NoDup (map pkg_key ps)
  /\ (forall p, In p ps -> exists q, reach path q /\ requires q p)
  /\ forall q p, reach path q -> requires q p -> In (pkg_key p) (map pkg_key ps).
Proof.
  unfold parse_requirements_txt. destruct (parse_req d path []) as [[x s]|] eqn:P; [|discriminate]. cbn. intros E. injection E as ->.
  pose proof (parse_req_ok _ _ _ _ _ P) as PA. pose proof (closed _ _ _ PA) as C. destruct PA as [P1 P2 P3 P4 P5 P6]. split; [|split; [exact P2|split]].
  - intros q R. exact (vi_readable _ _ _ _ (C q R)).
  - intros p I. destruct (P3 p I) as (q & [->|Q] & R); [exists path|exists q]; (split; [|exact R]); [constructor|auto].
  - intros q p R. exact (vi_owns _ _ _ _ (C q R) p).
Qed.
Lemma parse_err d path e : parse_requirements_txt it files d path = Some (inl e) -> exists q, reach path q /\ ~ readable q.
Proof.
  unfold parse_requirements_txt. destruct (parse_req d path []) as [[x s]|] eqn:P; [|discriminate]. cbn. intros E. injection E as ->. eapply parse_req_err; eauto.
Qed.
Lemma requires_form q p : requires q p -> exists n v, p = mkPkg n v "" "PyPI" "PyPI".
Proof.
  intros R. pose proof R as (c & f & _ & F & _). apply (line_of_kinds _ _ _ _ F) in R. unfold kinds in R. apply in_map_iff in R as (line & K & _).
  unfold kind_of in K. destruct (strip_prefix _ _); [discriminate|]. destruct (is_not_requirement_line _); [discriminate|]. injection K as <-.
  destruct (parse_line_is (remove_comments line)); eexists _, _; reflexivity.
Qed.
Lemma app_last_char c a b a' b' : has_char c b = false -> has_char c b' = false -> a +s+ String c b = a' +s+ String c b' -> a = a' /\ b = b'.
Proof.
  intros H H' E. assert (X : cut_last c (a +s+ String c b) = Some (a, b)) by now apply cut_last_some.
  assert (Y : cut_last c (a' +s+ String c b') = Some (a', b')) by now apply cut_last_some. rewrite E, Y in X. injection X as -> ->. auto.
Qed.
Lemma parse_exact d path ps : parse_requirements_txt it files d path = Some (inr ps) ->
  (forall q p, reach path q -> requires q p -> has_char "@" (p_version p) = false) ->
  NoDup ps /\ forall p, In p ps <-> exists q, reach path q /\ requires q p.
Proof.
  intros H V. apply parse_ok in H as (R & N & F & C). split; [eapply NoDup_map_inv; eauto|]. intros p. split; [apply F|].
  intros (q & Q & P). pose proof (C q p Q P) as I. apply in_map_iff in I as (p' & E & I). destruct (F p' I) as (q' & Q' & P').
  enough (p' = p) as <- by exact I. pose proof (V _ _ Q P) as W. pose proof (V _ _ Q' P') as W'.
  destruct (requires_form _ _ P) as (n & v & ->). destruct (requires_form _ _ P') as (n' & v' & ->). unfold pkg_key in E. cbn in *.
  apply app_last_char in E as [-> ->]; auto.
Qed.
Lemma parse_success D path : (forall p, files p <> Gone -> In p D) ->
  (forall q, reach path q -> readable q) -> exists ps, forall d, List.length D + 2 <= d -> parse_requirements_txt it files d path = Some (inr ps).
Proof.
  intros FIN R. destruct (parse_ends D FIN path) as ([e|ps] & E); [|exists ps; exact E]. exfalso.
  destruct (parse_err _ _ _ (E _ (le_n _))) as (q & Q & N). exact (N (R q Q)).
Qed.
End WithFiles.
