From Coq Require Import QArith.
From Verif Require Import GoStr GoStrFacts Types Regex RegexFacts RegexIn MemDB GoMap Scan Ecosystems LockIO ListLocks ListLocksProofs Commit CommitSpec CommitProofs YarnLock YarnSpec YarnProofs LockSpec KeyLocksProofs PnpmLock PnpmSpec.
Local Open Scope string_scope.
Local Open Scope nat_scope.

(** two splits of one text *)
Lemma sapp_cases x : forall y z w, x +s+ y = z +s+ w -> (exists t, z = x +s+ t /\ y = t +s+ w) \/ (exists c t, x = z +s+ String c t /\ w = String c t +s+ y).
Proof.
  induction x as [|c x IH]; intros y z w E; [left; exists z; auto|]. destruct z as [|d z]; cbn in E.
  - right. exists c, x. split; [reflexivity|]. now rewrite <- E.
  - injection E as <- E. apply IH in E as [(t & -> & ->)|(e & t & -> & ->)]; [left|right]; [exists t|exists e, t]; auto.
Qed.
Notation vchar := pnpm_version_char.
Definition paren_end (r : string) : Prop := r = "" \/ exists t, r = String "(" t.
Lemma peers_end p : v6_peers p -> paren_end p.
Proof. intros [|q r A B C D]; [now left|right]. cbn. eauto. Qed.
Lemma peers_at p : v6_peers p -> forall a b r, p = a +s+ String "@" (b +s+ r) -> b <> "" -> str_forall vchar b = true -> paren_end r -> False.
Proof.
  induction 1 as [|x q A B C V IH]; intros a b r E N F R; [destruct a; discriminate|].
  destruct a as [|c a]; cbn in E; [discriminate|]. injection E as _ E.
  apply sapp_cases in E as [(t & -> & E)|(d & t & -> & E)].
  - destruct t as [|d t]; cbn in E; [discriminate|]. injection E as _ E. eapply IH; eauto.
  - cbn in E. injection E as <- E. apply sapp_cases in E as [(u & Et & E)|(d & u & -> & E)].
    + destruct u as [|d u]; cbn in E.
      * subst r. destruct R as [R|(z & R)]; discriminate.
      * rewrite Et, !has_char_app in A. cbn -[Ascii.eqb] in A. rewrite !has_char_app in A. cbn -[Ascii.eqb] in A. repeat (apply orb_false_iff in A as [? A]).
        subst r. destruct R as [R|(z & R)]; [discriminate|]. injection R as -> _. destruct (Ascii.eqb_spec "(" "("); congruence.
    + cbn in E. injection E as <- _. rewrite str_forall_app in F. apply andb_true_iff in F as [_ F]. cbn in F. discriminate.
Qed.

Lemma span_end v p : str_forall vchar v = true -> paren_end p -> span vchar (v +s+ p) = (v, p).
Proof. intros V P. apply span_unique; [exact V|]. intros c t E. destruct P as [->|(u & ->)]; [discriminate|]. now injection E as <- _. Qed.
(** in n@v(peers) the one place the regexp can split is after n *)
Lemma split_here n v p a b r : pnpm_name n -> v <> "" -> str_forall vchar v = true -> v6_peers p ->
  n +s+ String "@" (v +s+ p) = a +s+ String "@" (b +s+ r) -> a <> "" -> b <> "" -> str_forall vchar b = true -> paren_end r -> a = n /\ b = v.
Proof.
  intros N NV V P E NA NB B R.
  assert (H : forall x y, n = x +s+ String "@" y -> x = "").
  { intros x y H. destruct N as [(_ & _ & A & _)|(s & m & -> & (_ & _ & S & _) & (_ & _ & M & _))].
    - rewrite H, has_char_app in A. cbn in A. now rewrite orb_true_r in A.
    - destruct x as [|c x]; [reflexivity|]. exfalso. injection H as _ H. apply (f_equal (has_char "@")) in H. rewrite !has_char_app, S in H. cbn in H. rewrite M, orb_true_r in H. discriminate. }
  apply sapp_cases in E as [(t & -> & E)|(c & t & -> & E)].
  - destruct t as [|c t]; cbn in E.
    + injection E as E. rewrite sapp_nil_r. split; [reflexivity|]. pose proof (span_end v p V (peers_end p P)) as S1. pose proof (span_end b r B R) as S2. rewrite E, S2 in S1. congruence.
    + injection E as <- E. exfalso. apply sapp_cases in E as [(u & -> & E)|(d & u & -> & E)].
      * eapply peers_at; eauto.
      * cbn in E. injection E as <- _. rewrite str_forall_app in V. apply andb_true_iff in V as [_ V]. discriminate.
  - cbn in E. injection E as <- _. exfalso. apply NA. eapply H; reflexivity.
Qed.
Lemma name_lines n : pnpm_name n -> n <> "" /\ str_forall is_dot n = true.
Proof.
  assert (H : forall m, plain_part m -> str_forall is_dot m = true) by (intros m (_ & _ & _ & M); apply has_char_str_forall in M; revert M; apply str_forall_impl; intros c; unfold is_dot; rewrite (Ascii.eqb_sym c); auto).
  intros [N|(s & m & -> & S & M)]; [split; [apply N|auto]|]. split; [discriminate|]. cbn [append str_forall]. rewrite str_forall_app. cbn [append str_forall]. now rewrite (H _ S), (H _ M).
Qed.
Lemma nav_spec n v p : pnpm_name n -> v <> "" -> str_forall vchar v = true -> v6_peers p -> parse_name_at_version (n +s+ "@" +s+ v +s+ p) = (n, v).
Proof.
  intros N NV V P. unfold parse_name_at_version. destruct (find _ _) as [m|] eqn:F.
  - apply find_some in F as (u & w & x & E & H & C & _). unfold group. rewrite C. unfold re_name_at_version in H. step H y. apply in_bol in Y as [B ->]. destruct u; [|discriminate]. clear B.
    cbn [append] in E. subst w. step H y. apply in_cap_plus in Y as (a & t & NA & A & E & ->). step H y. apply in_chr in Y as (t1 & -> & ->).
    step H y. apply in_cap_plus in Y as (b & r & NB & B & -> & ->). rewrite seqs1, in_alt in H.
    assert (R : paren_end r /\ st_caps x = [(2, b); (1, a)]).
    { destruct H as [H|H]; [apply in_chr in H as (t & -> & ->)|apply in_eol in H as [H ->]; cbn in H; subst r]; split; auto; [right; eauto|now left]. }
    destruct R as [R ->]. destruct (split_here n v p a b r N NV V P E NA NB B R) as [-> ->]. reflexivity.
  - exfalso. rewrite find_none in F. destruct (name_lines n N) as [NN D]. destruct (peers_end p P) as [->|(t & ->)].
    + refine (F "" _ _ eq_refl _). unfold re_name_at_version.
      go (mkst true (n +s+ "@" +s+ v +s+ "") []); [now apply in_bol|]. go (mkst false (String "@" (v +s+ "")) [(1, n)]); [apply in_cap_plus; eauto 7|].
      go (mkst false (v +s+ "") [(1, n)]); [apply in_chr; eauto|]. go (mkst false "" [(2, v); (1, n)]); [apply in_cap_plus; eauto 7|]. rewrite seqs1, in_alt. right. apply in_eol. split; reflexivity.
    + refine (F "" _ _ eq_refl _). unfold re_name_at_version.
      go (mkst true (n +s+ "@" +s+ v +s+ String "(" t) []); [now apply in_bol|]. go (mkst false (String "@" (v +s+ String "(" t)) [(1, n)]); [apply in_cap_plus; eauto 7|].
      go (mkst false (v +s+ String "(" t) [(1, n)]); [apply in_chr; eauto|]. go (mkst false (String "(" t) [(2, v); (1, n)]); [apply in_cap_plus; eauto 7|]. rewrite seqs1, in_alt. left. apply in_chr. eauto.
Qed.
(** ** paths *)
Lemma prefix_before p c a b : has_char c p = false -> forall r, a +s+ String c b = p +s+ r -> exists t, a = p +s+ t.
Proof.
  intros H r E. symmetry in E. apply sapp_cases in E as [(t & -> & _)|(d & t & -> & E)]; [eauto|].
  cbn in E. injection E as <- _. rewrite has_char_app in H. cbn in H. rewrite Ascii.eqb_refl, orb_true_r in H. discriminate.
Qed.
Lemma number_spec v : number_first v -> starts_with_number v = true.
Proof.
  intros (c & t & -> & D). unfold starts_with_number. destruct (find _ _) eqn:F; [reflexivity|]. rewrite find_none in F. exfalso. refine (F "" _ (mkst false t []) eq_refl _).
  go (mkst true (String c t) []); [now apply in_bol|]. rewrite seqs1. apply in_cls. eauto.
Qed.
Lemma seqb_ne s : s <> "" -> seqb s "" = false.
Proof. apply seqb_neq. Qed.
Lemma cut_us v p : has_char "_" v = false -> v5_peers p -> cut_before (v +s+ p) "_" = v.
Proof.
  intros V [->|(q & ->)]; unfold cut_before.
  - now rewrite sapp_nil_r, cut_char_absent.
  - change ("_" +s+ q) with (String "_" q). now rewrite cut_char_found.
Qed.
Lemma plain_at m : plain_part m -> has_prefix m "@" = false.
Proof. intros (_ & _ & A & _). apply has_prefix_false. intros r ->. discriminate. Qed.
Lemma split_slash a b : has_char "/" a = false -> split_char "/" (a +s+ "/" +s+ b) = a :: split_char "/" b.
Proof. intros A. exact (split_char_app "/" a b A). Qed.
Lemma split_version v p : has_char "/" v = false -> v5_peers p -> exists p' l, split_char "/" (v +s+ p) = (v +s+ p') :: l /\ v5_peers p'.
Proof.
  intros V [->|(q & ->)].
  - exists "", []. rewrite sapp_nil_r. split; [now apply split_char_nochar|now left].
  - destruct (cut_at "/" q) as [[b a]|] eqn:E.
    + apply cut_at_char in E as [-> B]. exists ("_" +s+ b), (split_char "/" a). split; [|right; eauto].
      replace (v +s+ "_" +s+ b +s+ String "/" a) with ((v +s+ "_" +s+ b) +s+ String "/" a) by now rewrite !sapp_assoc. apply split_char_app. rewrite has_char_app, V. exact B.
    + apply cut_at_char_none in E. exists ("_" +s+ q), []. split; [|right; eauto]. apply split_char_nochar. rewrite has_char_app, V. exact E.
Qed.
Lemma version_ne v : number_first v -> forall p, seqb (v +s+ p) "" = false.
Proof. intros (c & t & -> & _) p. reflexivity. Qed.
Lemma number_app v p : number_first v -> number_first (v +s+ p).
Proof. intros (c & t & -> & D). exists c, (t +s+ p). auto. Qed.
Lemma join2 s m : join "/" [s; m] = s +s+ "/" +s+ m.
Proof. reflexivity. Qed.
Lemma extract_v5 reg n v p : has_char "/" reg = false -> (forall f, reg <> "file:" +s+ f) -> pnpm_name n -> v5_version v -> v5_peers p ->
  extract_pnpm (reg +s+ "/" +s+ n +s+ "/" +s+ v +s+ p) false = Ok (Some (n, v)).
Proof.
  intros R F N (V1 & V2 & V3) P. unfold extract_pnpm. destruct (has_prefix _ "file:") eqn:H.
  { apply has_prefix_iff in H as (r & H). exfalso. change ("/" +s+ n +s+ "/" +s+ v +s+ p) with (String "/" (n +s+ "/" +s+ v +s+ p)) in H. apply prefix_before in H as (t & H); [eapply F, H|reflexivity]. }
  rewrite split_slash by exact R. destruct (split_version v p V3 P) as (p' & l & S & P'). destruct N as [N|(s & m & -> & A & M)].
  - rewrite split_slash by exact (proj1 (proj2 N)). rewrite S, (plain_at n N). cbn [rbind]. rewrite !(version_ne v V1), (number_spec _ (number_app _ p' V1)). cbn [orb negb]. rewrite cut_us by assumption. reflexivity.
  - rewrite !sapp_assoc. change ("@" +s+ s +s+ "/" +s+ m +s+ "/" +s+ v +s+ p) with (("@" +s+ s) +s+ "/" +s+ m +s+ "/" +s+ v +s+ p). rewrite split_slash by exact (proj1 (proj2 A)).
    rewrite split_slash by exact (proj1 (proj2 M)). rewrite S. rewrite (has_prefix_app "@" s). cbn [rbind].
    rewrite !(version_ne v V1), (number_spec _ (number_app _ p' V1)). cbn [orb negb]. rewrite cut_us by auto. reflexivity.
Qed.
Lemma peers_slash p : v6_peers p -> has_char "/" p = false.
Proof. induction 1 as [|q r A B C V IH]; [reflexivity|]. cbn. rewrite has_char_app, C. exact IH. Qed.
Lemma extract_v6 n v p : pnpm_name n -> v6_version v -> v6_peers p -> extract_pnpm ("/" +s+ n +s+ "@" +s+ v +s+ p) false = Ok (Some (n, v)).
Proof.
  intros N (V1 & V2 & V3) P. unfold extract_pnpm. change (has_prefix ("/" +s+ n +s+ "@" +s+ v +s+ p) "file:") with false. cbv iota.
  change ("/" +s+ n +s+ "@" +s+ v +s+ p) with ("" +s+ "/" +s+ n +s+ "@" +s+ v +s+ p). rewrite split_slash by reflexivity.
  assert (W : has_char "/" ("@" +s+ v +s+ p) = false) by (cbn; rewrite has_char_app, (peers_slash p P), (str_forall_has_char _ "/" v V2 eq_refl); reflexivity).
  assert (NV : v <> "") by (destruct V1 as (c & t & -> & _); discriminate).
  assert (PN : parse_name_at_version (n +s+ "@" +s+ v +s+ p) = (n, v)) by now apply nav_spec.
  assert (C : cut_before v "_" = v) by (unfold cut_before; now rewrite cut_char_absent).
  destruct N as [N|(s & m & -> & A & M)].
  - rewrite split_char_nochar by (rewrite has_char_app, W; now rewrite (proj1 (proj2 N))).
    destruct (has_prefix _ "@") eqn:H.
    { exfalso. apply has_prefix_iff in H as (r & H). destruct N as (N0 & _ & N & _). destruct n; [congruence|]. injection H as -> _. discriminate. }
    cbn [rbind]. rewrite seqb_refl, PN, (seqb_ne _ NV), (number_spec v V1). cbn [orb negb]. now rewrite C.
  - rewrite !sapp_assoc in PN |- *. change ("@" +s+ s +s+ "/" +s+ m +s+ "@" +s+ v +s+ p) with (("@" +s+ s) +s+ "/" +s+ m +s+ "@" +s+ v +s+ p) in PN |- *.
    rewrite split_slash by exact (proj1 (proj2 A)). rewrite split_char_nochar by (rewrite has_char_app, W; now rewrite (proj1 (proj2 M))).
    rewrite (has_prefix_app "@" s). cbn [rbind]. rewrite join2, seqb_refl. rewrite PN, (seqb_ne _ NV), (number_spec v V1). cbn [orb negb]. now rewrite C.
Qed.
Lemma trim_quotes_id s : (forall t, s <> String "'" t) -> trim_quotes s = s.
Proof. destruct s as [|c s]; [reflexivity|]. intros H. cbn [trim_quotes]. destruct (Ascii.eqb_spec c "'") as [->|]; [destruct (H s eq_refl)|reflexivity]. Qed.
Lemma trim_single q s : (q = "" \/ q = "'") -> (forall t, s <> String "'" t) -> (forall t, s <> t +s+ "'") -> s <> "" -> trim_single_quotes (q +s+ s +s+ q) = s.
Proof.
  intros Q A B NE. assert (R : forall t, str_rev s <> String "'" t).
  { intros t E. apply (f_equal str_rev) in E. rewrite str_rev_involutive, str_rev_cons in E. exact (B _ E). }
  assert (H : trim_single_quotes s = s). { unfold trim_single_quotes. rewrite (trim_quotes_id s A), (trim_quotes_id _ R). apply str_rev_involutive. }
  destruct Q as [->| ->]; [now rewrite sapp_nil_r|]. unfold trim_single_quotes. change (trim_quotes ("'" +s+ s +s+ "'")) with (trim_quotes (s +s+ "'")).
  rewrite (trim_quotes_id (s +s+ "'")).
  - rewrite str_rev_append. change (trim_quotes (str_rev "'" +s+ str_rev s)) with (trim_quotes (str_rev s)). rewrite (trim_quotes_id _ R). apply str_rev_involutive.
  - intros t E. destruct s as [|c s]; [congruence|]. injection E as -> _. eapply A; reflexivity.
Qed.
Lemma last_of s : s <> "" -> exists t c, s = t +s+ String c "".
Proof. induction s as [|c [|d s] IH]; [congruence|exists "", c; reflexivity|]. intros _. destruct IH as (t & e & ->); [discriminate|]. exists (String c t), e. reflexivity. Qed.
Lemma extract_v9 q n v : (q = "" \/ q = "'") -> npm_name n -> (forall t, n <> "'" +s+ t) -> (forall t, n <> "file:" +s+ t) -> v9_version v ->
  extract_pnpm (q +s+ n +s+ "@" +s+ v +s+ q) true = Ok (Some (n, v)).
Proof.
  intros Q N A F [V1 V2]. unfold extract_pnpm. destruct (has_prefix _ "file:") eqn:H.
  { exfalso. apply has_prefix_iff in H as (r & H). destruct Q as [->| ->]; [|discriminate]. change (n +s+ String "@" (v +s+ "") = "file:" +s+ r) in H.
    apply prefix_before in H as (t & H); [eapply F, H|reflexivity]. }
  replace (n +s+ "@" +s+ v +s+ q) with ((n +s+ "@" +s+ v) +s+ q) by now rewrite !sapp_assoc. rewrite (trim_single q (n +s+ "@" +s+ v) Q).
  - pose proof (cut_at_name n v N) as C. destruct (cut_prefix _ "@") as [str sc]. destruct (cut str "@") as [[m w] o]. now rewrite C.
  - intros t E. destruct N as [N _], n as [|c n]; [congruence|]. injection E as -> _. eapply A; reflexivity.
  - intros t E. destruct (last_of v V1) as (x & c & ->). replace (n +s+ "@" +s+ x +s+ String c "") with ((n +s+ "@" +s+ x) +s+ String c "") in E by now rewrite !sapp_assoc.
    apply last_char_inj in E as [_ ->]. eapply V2; reflexivity.
  - destruct N as [N _], n; [congruence|discriminate].
Qed.
Lemma path_spec nine path n v : pnpm_path nine path n v -> extract_pnpm path nine = Ok (Some (n, v)).
Proof. intros [f|reg m w p E A B C D F|m w p E A B C|q m w E A B C D F]; try subst nine; [reflexivity|now apply extract_v5|now apply extract_v6|now apply extract_v9]. Qed.
(** ** commits *)
Lemma in_codeload u v x : In x (ms re_codeload (mkst (starts u) v [])) ->
  exists o r c, repo_name o /\ repo_name r /\ word c /\ v = "https://codeload.github.com/" +s+ o +s+ "/" +s+ r +s+ "/tar.gz/" +s+ c /\ st_caps x = [(1, c)].
Proof.
  intros H. unfold re_codeload in H. step H y. apply in_lit in Y as (t & -> & ->). step H y. apply in_sq in Y as (z & Z & Y). apply in_chr in Z as (t1 & -> & ->).
  apply in_plus in Y as (o & t2 & O1 & O2 & -> & ->). step H y. apply in_sq in Y as (z & Z & Y). apply in_chr in Z as (t3 & -> & ->).
  apply in_plus in Y as (r & t4 & R1 & R2 & -> & ->). step H y. apply in_lit in Y as (c & -> & ->). rewrite seqs2, seqs1 in H. tail_of H. exists o, r, c. repeat split; auto; apply H.
Qed.
Lemma codeload_find p o r c : repo_name o -> repo_name r -> word c -> find re_codeload (p +s+ "https://codeload.github.com/" +s+ o +s+ "/" +s+ r +s+ "/tar.gz/" +s+ c) <> None.
Proof.
  intros [O1 O2] [R1 R2] C F. rewrite find_none in F. refine (F p _ (mkst false "" [(1, c)]) eq_refl _). unfold re_codeload.
  go (mkst false (String "/" (o +s+ String "/" (r +s+ "/tar.gz/" +s+ c))) []); [apply in_lit; eexists; split; reflexivity|].
  go (mkst false (String "/" (r +s+ "/tar.gz/" +s+ c)) []); [apply in_sq; exists (mkst false (o +s+ String "/" (r +s+ "/tar.gz/" +s+ c)) []); split; [apply in_chr; eexists; split; reflexivity|apply in_plus; exists o; eexists; repeat split; auto]|].
  go (mkst false ("/tar.gz/" +s+ c) []); [apply in_sq; exists (mkst false (r +s+ "/tar.gz/" +s+ c) []); split; [apply in_chr; eexists; split; reflexivity|apply in_plus; exists r; eexists; repeat split; auto]|].
  go (mkst false c []); [apply in_lit; eexists; split; reflexivity|]. rewrite seqs2, seqs1. apply in_tail. split; [exact C|reflexivity].
Qed.
Lemma codeload_fun t c d : codeload t c -> codeload t d -> c = d.
Proof.
  intros (_ & p & o & r & _ & _ & [_ C] & ->) (_ & p' & o' & r' & _ & _ & [_ D] & E).
  apply (end_fun_p is_word (p +s+ "https://codeload.github.com/" +s+ o +s+ "/" +s+ r +s+ "/tar.gz") "/" c (p' +s+ "https://codeload.github.com/" +s+ o' +s+ "/" +s+ r' +s+ "/tar.gz") "/" d); auto.
  rewrite !sapp_assoc. exact E.
Qed.
Lemma pnpm_commit_ok d : pnpm_commit_of d (pnpm_commit d).
Proof.
  unfold pnpm_commit. destruct (has_prefix _ _) eqn:P.
  - pose proof P as Q. apply has_prefix_iff in Q. destruct (find _ _) as [m|] eqn:F.
    + apply find_some in F as (u & v & x & E & H & C & _). apply in_codeload in H as (o & r & c & O & R & W & -> & X). left. unfold group. rewrite C, X. cbn. split; [exact Q|]. exists u, o, r. split; [exact O|]. split; [exact R|]. split; [exact W|exact E].
    + right. split; [|reflexivity]. intros x (_ & p & o & r & O & R & C & E). rewrite E in F. exact (codeload_find _ _ _ _ O R C F).
  - right. split; [|reflexivity]. intros x ((t & E) & _). rewrite E, has_prefix_app in P. discriminate.
Qed.
Lemma pnpm_commit_fun d c c' : pnpm_commit_of d c -> pnpm_commit_of d c' -> c = c'.
Proof. intros [H|[N H]] [H'|[N' H']]; [eapply codeload_fun; eauto|destruct (N' _ H)|destruct (N _ H')|congruence]. Qed.
(** ** entries *)
Lemma field_eq f p v : field_or f p v -> (if negb (seqb f "") then f else p) = v.
Proof. intros [[N ->]|[-> ->]]; [now rewrite (seqb_ne _ N)|reflexivity]. Qed.
Lemma pnpm_loop_spec nine l ps : makes (pnpm_entry nine) l ps -> pnpm_loop nine l = Ok (Some ps).
Proof.
  induction 1 as [|[k d] p l ps H M IH|[k d] l ps H M IH]; [reflexivity| |]; destruct H as (pn & pv & n & v & P & N & V & O); cbn [fst snd] in *;
    cbn [pnpm_loop]; rewrite (path_spec _ _ _ _ P); cbn [rbind]; rewrite (field_eq _ _ _ N), (field_eq _ _ _ V).
  - destruct O as [[_ O]|(A & B & c & C & O)]; [discriminate|]. injection O as ->. rewrite (seqb_ne _ A), (seqb_ne _ B). cbn [orb]. rewrite IH. cbn. do 3 f_equal. f_equal. eapply pnpm_commit_fun; [apply pnpm_commit_ok|exact C].
  - destruct O as [[A _]|(A & B & c & C & O)]; [|discriminate]. destruct A as [->| ->]; rewrite seqb_refl, ?orb_true_r; exact IH.
Qed.
Lemma pnpm_read it files float yaml path v l : pnpm_file files float yaml path v l ->
  parse_pnpm_lock it files float yaml path = rbind (pnpm_loop (Qeq_bool v 9) (it _ l)) (fun r => match r with Some ps => packages_of ps | None => fails_with (FParse path) end).
Proof. intros (content & version & F & Y & V). unfold parse_pnpm_lock, decoded, read_file. rewrite F, Y. cbn. rewrite V. reflexivity. Qed.
Lemma pnpm_lock it files float yaml path v nine l ps : IterOk it -> pnpm_file files float yaml path v l -> (nine = true <-> v == 9) -> makes (pnpm_entry nine) l ps ->
  exists out, parse_pnpm_lock it files float yaml path = Ok (inr out) /\ Permutation ps out.
Proof.
  intros IT F N M. rewrite (pnpm_read _ _ _ _ _ _ _ F). assert (E : Qeq_bool v 9 = nine). { apply eq_true_iff_eq. rewrite Qeq_bool_iff. symmetry. exact N. }
  rewrite E. destruct (makes_perm _ _ _ (IT _ l) _ M) as (out & M' & P). rewrite (pnpm_loop_spec _ _ _ M'). exists out. split; [reflexivity|exact P].
Qed.
(** ** what is not a path *)
Lemma split_one c s a : split_char c s = [a] <-> has_char c s = false /\ a = s.
Proof.
  split.
  - intros E. pose proof (join_split_char c s) as J. pose proof (split_char_pieces c s) as P. rewrite E in *. cbn in J. subst a. inversion P; auto.
  - intros [H ->]. now apply split_char_nochar.
Qed.
Lemma split_two c s a b : split_char c s = [a; b] <-> has_char c a = false /\ has_char c b = false /\ s = a +s+ String c b.
Proof.
  split.
  - intros E. pose proof (join_split_char c s) as J. pose proof (split_char_pieces c s) as P. rewrite E in *. cbn in J. inversion P as [|? ? P1 P2]; subst. inversion P2; subst. auto.
  - intros (A & B & ->). rewrite split_char_app by exact A. now rewrite split_char_nochar.
Qed.
Lemma not_file path : has_prefix path "file:" = false <-> forall f, path <> "file:" +s+ f.
Proof. apply has_prefix_false. Qed.
Lemma extract_cases path : extract_pnpm path false = Panic /\ bare_scope path
  \/ extract_pnpm path false = Ok None /\ no_path path
  \/ exists n v, extract_pnpm path false = Ok (Some (n, v)) /\ ~ no_path path /\ ~ bare_scope path.
Proof.
  unfold extract_pnpm. destruct (has_prefix path "file:") eqn:F.
  { right. right. exists "", "". split; [reflexivity|]. apply has_prefix_iff in F as (r & F). split; [intros [_ H]|intros (a & s & _ & _ & _ & H)]; exact (H _ F). }
  rewrite not_file in F. destruct (split_char "/" path) as [|a [|b l]] eqn:E.
  - destruct (split_char_cons "/" path) as (? & ? & H). congruence.
  - right. left. split; [reflexivity|]. apply split_one in E as [H _]. split; auto.
  - assert (N : ~ no_path path). { intros [H _]. rewrite (split_char_nochar _ _ H) in E. discriminate. }
    destruct (has_prefix b "@") eqn:B.
    + destruct l as [|m l].
      * left. split; [reflexivity|]. apply split_two in E as (H1 & H2 & ->). apply has_prefix_iff in B as (s & ->). exists a, s. repeat split; auto.
      * right. right. assert (S : ~ bare_scope path). { intros (x & s & -> & X & S & _). change (x +s+ "/@" +s+ s) with (x +s+ String "/" (String "@" s)) in E. rewrite split_char_app in E by exact X.
          rewrite split_char_nochar in E by exact S. discriminate. }
        cbn [rbind]. destruct (seqb _ ""); [destruct (parse_name_at_version _)|]; destruct (_ || _); eauto 6.
    + right. right. assert (S : ~ bare_scope path). { intros (x & s & -> & X & S & _). change (x +s+ "/@" +s+ s) with (x +s+ String "/" (String "@" s)) in E. rewrite split_char_app in E by exact X.
          rewrite split_char_nochar in E by exact S. injection E as _ <- _. discriminate. }
        cbn [rbind]. destruct (seqb _ ""); [destruct (parse_name_at_version _)|]; destruct (_ || _); eauto 6.
Qed.
Lemma extract_nine path : exists n v, extract_pnpm path true = Ok (Some (n, v)).
Proof. unfold extract_pnpm. destruct (has_prefix _ _); [eauto|]. destruct (cut_prefix _ _) as [a b], (cut a "@") as [[c d] e]. eauto. Qed.
Lemma pnpm_loop_nine l : exists ps, pnpm_loop true l = Ok (Some ps).
Proof.
  induction l as [|[k d] l (ps & IH)]; cbn [pnpm_loop]; [eauto|]. destruct (extract_nine k) as (n & v & ->). cbn [rbind]. destruct (_ || _); [eauto|]. rewrite IH. cbn. eauto.
Qed.
Lemma pnpm_loop_cases l : pnpm_loop false l = Panic /\ Exists (fun d => bare_scope (fst d)) l
  \/ pnpm_loop false l = Ok None /\ Exists (fun d => no_path (fst d)) l
  \/ (exists ps, pnpm_loop false l = Ok (Some ps)) /\ Forall (fun d => ~ bare_scope (fst d) /\ ~ no_path (fst d)) l.
Proof.
  induction l as [|[k d] l IH]; cbn [pnpm_loop]; [right; right; split; [eauto|constructor]|].
  destruct (extract_cases k) as [[-> H]|[[-> H]|(n & v & -> & H1 & H2)]]; cbn [rbind]; [left; split; [reflexivity|now left]|right; left; split; [reflexivity|now left]|].
  destruct IH as [[-> H]|[[-> H]|[(ps & ->) H]]]; cbn [rbind option_map].
  - left. split; [destruct (_ || _); reflexivity|now right].
  - right. left. split; [destruct (_ || _); reflexivity|now right].
  - right. right. split; [destruct (_ || _); eauto|constructor; auto].
Qed.
Lemma pnpm_fails it files float yaml path v l : IterOk it -> pnpm_file files float yaml path v l ->
  match parse_pnpm_lock it files float yaml path with
  | Panic => ~ v == 9 /\ Exists (fun d => bare_scope (fst d)) l
  | Ok (inl f) => ~ v == 9 /\ Exists (fun d => no_path (fst d)) l /\ f = FParse path
  | Ok (inr _) => v == 9 \/ Forall (fun d => ~ bare_scope (fst d) /\ ~ no_path (fst d)) l
  end.
Proof.
  intros IT F. rewrite (pnpm_read _ _ _ _ _ _ _ F). destruct (Qeq_bool v 9) eqn:N.
  - destruct (pnpm_loop_nine (it _ l)) as (ps & ->). cbn. left. now apply Qeq_bool_iff.
  - assert (V : ~ v == 9) by (rewrite <- Qeq_bool_iff, N; discriminate).
    destruct (pnpm_loop_cases (it _ l)) as [[-> H]|[[-> H]|[(ps & ->) H]]]; cbn [rbind packages_of fails_with].
    + split; [exact V|]. eapply Exists_perm; [|exact H]. symmetry. apply IT.
    + split; [exact V|]. split; [|reflexivity]. eapply Exists_perm; [|exact H]. symmetry. apply IT.
    + right. eapply Permutation_Forall; [|exact H]. symmetry. apply IT.
Qed.
