(** Proofs for GoLock.v. *)
From Coq Require Import Lia Arith.
From Verif Require Import GoStr GoStrFacts Types MemDB MemDBProofs GoMap Scan LockIO LockSpec PkgMapSpec PkgMap Built GoLock GoSpec.
Local Open Scope string_scope.

Lemma bare_iff v w : bare v w <-> trim_prefix v "v" = w.
Proof.
  unfold bare, trim_prefix. destruct (strip_prefix "v" v) as [r|] eqn:S.
  - apply strip_prefix_some in S as ->. split; [intros [E|[<- N]]; [now apply sapp_inj_l in E|destruct (N r eq_refl)]|intros ->; now left].
  - rewrite strip_prefix_none in S. split; [intros [E|[-> _]]; [destruct (S _ E)|reflexivity]|intros <-; right; auto].
Qed.
Lemma reported_iff m p : reported m p <-> p = go_pkg m.
Proof.
  unfold reported, go_pkg. split; [intros (w & B & ->); apply bare_iff in B as <-; reflexivity|intros ->; eexists; split; [now apply bare_iff|reflexivity]].
Qed.
(** ** what a key stands for *)
Definition applies_key (r : Replace) (k : string) (cur : Module) : bool :=
  if seqb (mod_version (rp_old r)) "" then seqb (mod_path cur) (mod_path (rp_old r)) else seqb k (mod_key (rp_old r)).
Lemma applies_iff r req cur : applies_key r (mod_key req) cur = true <-> applies r req cur.
Proof.
  unfold applies_key, applies. destruct (seqb_spec (mod_version (rp_old r)) "") as [E|E].
  - split; [intros H; left; split; [exact E|]; symmetry; now apply seqb_eq in H|intros [[_ H]|[H _]]; [rewrite H; apply seqb_refl|congruence]].
  - split; [intros H; right; split; [exact E|]; symmetry; now apply seqb_eq in H|intros [[H _]|[_ H]]; [congruence|rewrite H; apply seqb_refl]].
Qed.
Definition step (k : string) (cur : Module) (r : Replace) : Module := if applies_key r k cur then rp_new r else cur.
Lemma replaced_iff req rs : forall cur m, replaced req rs cur m <-> fold_left (step (mod_key req)) rs cur = m.
Proof.
  induction rs as [|r rs IH]; intros cur m; cbn [fold_left].
  - split; [now inversion 1|intros <-; constructor].
  - unfold step at 2. split.
    + intros H. inversion H as [|? ? ? ? A R|? ? ? ? A R]; subst; rewrite <- applies_iff in A; [rewrite A; now apply IH|]. destruct (applies_key r (mod_key req) cur); [congruence|now apply IH].
    + destruct (applies_key r (mod_key req) cur) eqn:A; intros H; [apply rp_apply; [now apply applies_iff|now apply IH]|apply rp_skip; [rewrite <- applies_iff; congruence|now apply IH]].
Qed.
Section Iter.
Variable it : Iter.
Hypothesis IT : IterOk it.
(** the map holds what the keys stand for *)
Definition holds (C : string -> option Module) (m : list (string * Pkg)) : Prop := NoDup (map fst m) /\ forall k, map_get k m = option_map go_pkg (C k).
Lemma fold_set_get (v : Pkg) ks : forall m k, map_get k (fold_left (fun m k => map_set k v m) ks m) = if in_dec string_dec k ks then Some v else map_get k m.
Proof.
  induction ks as [|x ks IH]; intros m k; [reflexivity|]. cbn [fold_left]. rewrite IH, map_get_set. destruct (in_dec string_dec k ks) as [I|I].
  - destruct (in_dec string_dec k (x :: ks)) as [|J]; [reflexivity|]. destruct J. now right.
  - destruct (seqb_spec x k) as [->|N]; destruct (in_dec string_dec k (_ :: ks)) as [[J|J]|J]; try reflexivity; try congruence; try contradiction. destruct J. now left.
Qed.
Lemma fold_set_nodup (v : Pkg) ks : forall m, NoDup (map fst m) -> NoDup (map fst (fold_left (fun m k => map_set k v m) ks m)).
Proof. induction ks as [|x ks IH]; intros m N; [exact N|]. cbn. apply IH. now apply map_set_nodup. Qed.
Lemma in_replacements r C m k : holds C m -> (In k (replacements it r m) <-> exists cur, C k = Some cur /\ applies_key r k cur = true).
Proof.
  intros [N G]. assert (I : forall k p, In (k, p) (it _ m) <-> map_get k m = Some p).
  { intros x p. rewrite (map_get_in _ _ _ N). split; intros H; (eapply Permutation_in; [|exact H]); [symmetry|]; apply IT. }
  unfold replacements, applies_key. destruct (seqb (mod_version (rp_old r)) "").
  - rewrite in_map_iff. split.
    + intros ([x p] & <- & H). apply filter_In in H as [H F]. apply I in H. cbn [fst]. rewrite G in H. destruct (C x) as [cur|]; [|discriminate]. cbn in H. injection H as <-. exists cur. split; [reflexivity|exact F].
    + intros (cur & E & F). exists (k, go_pkg cur). split; [reflexivity|]. apply filter_In. split; [apply I; rewrite G, E; reflexivity|exact F].
  - fold (mod_key (rp_old r)). split.
    + intros H. rewrite G in H. destruct (C (mod_key (rp_old r))) as [cur|] eqn:E; cbn in H; [|destruct H]. destruct H as [<-|[]]. exists cur. split; [exact E|apply seqb_refl].
    + intros (cur & E & F). apply seqb_eq in F as ->. rewrite G, E. cbn. now left.
Qed.
Lemma holds_step C m r : holds C m -> holds (fun k => option_map (fun cur => step k cur r) (C k)) (go_replace it m r).
Proof.
  intros H. pose proof (in_replacements r C m) as R. destruct H as [N G]. split; [now apply fold_set_nodup|]. intros k. unfold go_replace. rewrite fold_set_get. specialize (R k (conj N G)). unfold step. destruct (in_dec string_dec k _) as [I|I].
  - apply R in I as (cur & -> & A). cbn. now rewrite A.
  - rewrite G. destruct (C k) as [cur|] eqn:E; [|reflexivity]. cbn. destruct (applies_key r k cur) eqn:A; [|reflexivity]. destruct I. apply R. eauto.
Qed.
Lemma holds_fold rs : forall C m, holds C m -> holds (fun k => option_map (fun cur => fold_left (step k) rs cur) (C k)) (fold_left (go_replace it) rs m).
Proof.
  induction rs as [|r rs IH]; intros C m H; cbn [fold_left].
  - destruct H as [N G]. split; [exact N|]. intros k. rewrite G. now destruct (C k).
  - apply (holds_step C m r) in H. apply IH in H as [N G]. split; [exact N|]. intros k. rewrite G. now destruct (C k).
Qed.
Definition last_req (l : list Module) (k : string) : option Module := List.find (fun r => seqb (mod_key r) k) (rev l).
Lemma holds_required l : holds (last_req l) (go_required l).
Proof.
  unfold go_required, holds, last_req. induction l as [|r l [N G]] using rev_ind; [split; [constructor|reflexivity]|]. rewrite fold_left_app. cbn [fold_left]. split; [now apply map_set_nodup|]. intros k. rewrite rev_app_distr. cbn [rev app List.find]. rewrite map_get_set. fold (mod_key r).
  destruct (seqb (mod_key r) k); [reflexivity|apply G].
Qed.
Lemma required_snoc l e d : required (l ++ [e]) d <-> e = d \/ mod_key e <> mod_key d /\ required l d.
Proof.
  split.
  - intros (a & b & E & N). destruct b as [|b0 b1] eqn:B.
    + apply app_inj_tail in E as [_ ->]. now left.
    + rewrite <- B in *. assert (Z : b <> []) by congruence. apply exists_last in Z as (b2 & z & Z). rewrite Z in E. rewrite app_comm_cons, app_assoc in E. apply app_inj_tail in E as [-> ->].
      right. split; [apply N; rewrite Z; apply in_or_app; right; now left|]. exists a, b2. split; [reflexivity|]. intros x X. apply N. rewrite Z. apply in_or_app. now left.
  - intros [->|[X (a & b & -> & N)]]; [exists l, []; split; [reflexivity|intros k []]|]. exists a, (b ++ [e])%list. split; [now rewrite <- app_assoc|]. intros k K. apply in_app_or in K as [K|[<-|[]]]; auto.
Qed.
Lemma last_req_iff l k r : last_req l k = Some r <-> required l r /\ mod_key r = k.
Proof.
  unfold last_req. induction l as [|e l IH] using rev_ind.
  - split; [discriminate|]. intros [(a & b & E & _) _]. destruct a; discriminate.
  - rewrite rev_app_distr, required_snoc. cbn [rev app List.find]. destruct (seqb_spec (mod_key e) k) as [<-|K].
    + split; [intros E; injection E as <-; auto|]. intros [[->|[N _]] E]; [reflexivity|congruence].
    + rewrite IH. split; [intros [R <-]; auto|]. intros [[->|[N R]] E]; [congruence|auto].
Qed.
Definition final (f : GoMod) : list (string * Pkg) := fold_left (go_replace it) (gm_replace f) (go_required (gm_require f)).
Lemma final_in f p : (exists k, In (k, p) (final f)) <-> stands_for f p.
Proof.
  destruct (holds_fold (gm_replace f) _ _ (holds_required (gm_require f))) as [N G]. fold (final f) in N, G. unfold stands_for. split.
  - intros (k & I). apply (map_get_in _ _ _ N) in I. rewrite G in I. destruct (last_req (gm_require f) k) as [req|] eqn:L; [|discriminate]. cbn in I. injection I as <-. apply last_req_iff in L as [R <-]. exists req. eexists. split; [exact R|]. split; [now apply replaced_iff|now apply reported_iff].
  - intros (req & m & R & P & Q). apply reported_iff in Q as ->. apply replaced_iff in P as <-. exists (mod_key req). apply (map_get_in _ _ _ N). rewrite G. assert (L : last_req (gm_require f) (mod_key req) = Some req) by (apply last_req_iff; auto). now rewrite L.
Qed.
Lemma dedup_built m : built (deduplicate_packages it m) (map (fun e : string * Pkg => let (_, p) := e in (name_at p, p)) (it _ m)).
Proof.
  unfold deduplicate_packages. assert (H : forall l acc es, built acc es -> built (fold_left (fun details (e : string * Pkg) => let (_, detail) := e in map_set (p_name detail +s+ "@" +s+ p_version detail) detail details) l acc) (es ++ map (fun e : string * Pkg => let (_, p) := e in (name_at p, p)) l)%list).
  { induction l as [|[k p] l IH]; intros acc es B; cbn; [now rewrite app_nil_r|]. replace (es ++ (name_at p, p) :: map _ l)%list with ((es ++ [(name_at p, p)]) ++ map (fun e : string * Pkg => let (_, q) := e in (name_at q, q)) l)%list by (rewrite <- app_assoc; reflexivity). apply IH. now apply built_set. }
  exact (H (it _ m) [] [] built_nil).
Qed.
Lemma go_lock files modfile path content f : files path = Text content false -> modfile path content = Some f ->
  exists ps, parse_go_lock it files modfile path = Ok (inr ps)
    /\ NoDup (map name_at ps) /\ (forall p, In p ps -> stands_for f p) /\ (forall p, stands_for f p -> exists q, In q ps /\ name_at q = name_at p).
Proof.
  intros F M. unfold parse_go_lock, read_file. rewrite F, M. fold (final f). eexists. split; [reflexivity|]. pose proof (dedup_built (final f)) as B. pose proof (built_slice it _ _ IT B) as P.
  assert (E : forall k p, In (k, p) (map (fun e : string * Pkg => let (_, p) := e in (name_at p, p)) (it _ (final f))) <-> k = name_at p /\ stands_for f p).
  { intros k p. rewrite in_map_iff, <- final_in. split.
    - intros ([k' q] & E & I). injection E as <- <-. split; [reflexivity|]. exists k'. eapply Permutation_in; [symmetry; apply IT|exact I].
    - intros [-> (k' & I)]. exists (k', p). split; [reflexivity|]. eapply Permutation_in; [apply IT|exact I]. }
  pose proof (pick_key name_at _ _ P (fun k p H => proj1 (proj1 (E k p) H))) as [N I A]. split; [exact N|]. split.
  - intros p H. apply I in H. apply in_map_iff in H as ([k q] & <- & H). now apply E in H.
  - intros p S. assert (In p (map snd (map (fun e : string * Pkg => let (_, p) := e in (name_at p, p)) (it _ (final f))))) as H by (apply in_map_iff; exists (name_at p, p); split; [reflexivity|now apply E]). apply A in H. apply in_map_iff in H as (q & Q & H). eauto.
Qed.
End Iter.
Lemma go_unread it files modfile path : (forall content f, files path = Text content false -> modfile path content <> Some f) ->
  parse_go_lock it files modfile path = fails_with (match files path with Text _ false => FParse path | _ => FRead path end).
Proof.
  intros N. unfold parse_go_lock, read_file. destruct (files path) as [|content []]; try reflexivity. destruct (modfile path content) as [f|] eqn:M; [destruct (N content f eq_refl M)|reflexivity].
Qed.
(** ** exactly *)
Definition plain_versions (f : GoMod) : Prop :=
  (forall m, In m (gm_require f) -> has_char "@" (mod_version m) = false) /\ forall r, In r (gm_replace f) -> has_char "@" (mod_version (rp_new r)) = false.
Lemma required_in l r : required l r -> In r l.
Proof. intros (a & b & -> & _). apply in_or_app. right. now left. Qed.
Lemma replaced_from req rs cur m : replaced req rs cur m -> m = cur \/ exists r, In r rs /\ m = rp_new r.
Proof.
  induction 1 as [|r rs cur m A R IH|r rs cur m A R IH]; [now left| |].
  - right. destruct IH as [->|(r' & I & ->)]; [exists r; split; [now left|reflexivity]|exists r'; split; [now right|reflexivity]].
  - destruct IH as [->|(r' & I & ->)]; [now left|right; exists r'; split; [now right|reflexivity]].
Qed.
Lemma has_char_trim v w c : bare v w -> has_char c v = false -> has_char c w = false.
Proof. intros [->|[-> _]] H; [|exact H]. rewrite has_char_app in H. now apply orb_false_iff in H. Qed.
Lemma stands_plain f p : plain_versions f -> stands_for f p -> has_char "@" (p_version p) = false.
Proof.
  intros [P Q] (req & m & R & S & w & B & ->). cbn. eapply has_char_trim; [exact B|]. apply replaced_from in S as [->|(r & I & ->)]; [apply P; now apply required_in|now apply Q].
Qed.
Lemma stands_key f p q : plain_versions f -> stands_for f p -> stands_for f q -> name_at p = name_at q -> p = q.
Proof.
  intros P S T E. pose proof (stands_plain f p P S) as VP. pose proof (stands_plain f q P T) as VQ. destruct (at_key _ _ _ _ VP VQ E) as [EN EV]. destruct S as (? & ? & _ & _ & w & _ & ->), T as (? & ? & _ & _ & w' & _ & ->). cbn in EN, EV. congruence.
Qed.
Lemma go_exact it files modfile path content f : IterOk it -> files path = Text content false -> modfile path content = Some f -> plain_versions f ->
  exists ps, parse_go_lock it files modfile path = Ok (inr ps) /\ NoDup ps /\ forall p, In p ps <-> stands_for f p.
Proof.
  intros IT F M P. destruct (go_lock it IT files modfile path content f F M) as (ps & E & N & I & A). exists ps. split; [exact E|]. split; [eapply NoDup_map_inv; exact N|]. intros p. split; [apply I|]. intros S. destruct (A p S) as (q & Q & K). now rewrite <- (stands_key f q p P (I q Q) S K).
Qed.
(** ** one directive each *)
Lemma path_key m m' : plain_path m -> plain_path m' -> mod_key m = mod_key m' -> m = m'.
Proof.
  intros P P' E. unfold mod_key in E. assert (X : cut (mod_key m) "@" = (mod_path m, mod_version m, true)) by (apply cut_char_found; exact P). assert (Y : cut (mod_key m') "@" = (mod_path m', mod_version m', true)) by (apply cut_char_found; exact P').
  unfold mod_key in X, Y. rewrite E, Y in X. destruct m, m'. cbn in X. injection X as -> ->. reflexivity.
Qed.
Definition plain_paths (f : GoMod) : Prop := (forall m, In m (gm_require f) -> plain_path m) /\ forall r, In r (gm_replace f) -> plain_path (rp_old r).
Lemma required_plain f m : plain_paths f -> In m (gm_require f) -> required (gm_require f) m.
Proof.
  intros [P _] I. assert (H : forall l, (forall x, In x l -> plain_path x) -> In m l -> required l m).
  { intros l. induction l as [|e l IH] using rev_ind; intros Q J; [destruct J|]. apply required_snoc. apply in_app_or in J as [J|[->|[]]]; [|now left]. destruct (string_dec (mod_key e) (mod_key m)) as [E|E].
    - left. apply path_key; [apply Q, in_or_app; right; now left|apply Q, in_or_app; now left|exact E].
    - right. split; [exact E|]. apply IH; [intros x X; apply Q, in_or_app; now left|exact J]. }
  apply H; auto.
Qed.
Lemma applies_about r req : plain_path req -> plain_path (rp_old r) -> (applies r req req <-> about r req).
Proof.
  intros P Q. unfold applies, about. split.
  - intros [[E H]|[E H]]; [auto|]. apply path_key in H; auto. rewrite H. auto.
  - intros [H [E|E]]; [auto|]. destruct (string_dec (mod_version (rp_old r)) "") as [Z|Z]; [now left|]. right. split; [exact Z|]. unfold mod_key. now rewrite H, E.
Qed.
Lemma replaced_none req rs : plain_path req -> (forall r, In r rs -> plain_path (rp_old r) /\ ~ about r req) -> replaced req rs req req.
Proof.
  intros P. induction rs as [|r rs IH]; intros H; [constructor|]. destruct (H r (or_introl eq_refl)) as [Q N]. apply rp_skip; [now rewrite applies_about|]. apply IH. intros x X. apply H. now right.
Qed.
Lemma replaced_rest req rs cur : (forall r, In r rs -> ~ applies r req cur) -> replaced req rs cur cur.
Proof. induction rs as [|r rs IH]; intros H; [constructor|]. apply rp_skip; [apply H; now left|]. apply IH. intros x X. apply H. now right. Qed.
Lemma replaced_one req a r b : plain_path req -> (forall x, In x (a ++ r :: b) -> plain_path (rp_old x)) -> about r req -> (forall x, In x (a ++ b) -> ~ about x req) ->
  (forall x, In x b -> mod_version (rp_old x) = "" -> mod_path (rp_old x) <> mod_path (rp_new r)) -> replaced req (a ++ r :: b) req (rp_new r).
Proof.
  intros P Q A N C. induction a as [|x a IH]; cbn [app].
  - apply rp_apply; [apply applies_about; auto; apply Q; now left|]. apply replaced_rest. intros x X [[E H]|[E H]]; [exact (C x X E H)|].
    apply (N x X). apply path_key in H; [|apply Q; now right|exact P]. split; [now rewrite H|right; now rewrite H].
  - apply rp_skip; [rewrite applies_about; [apply N; now left|exact P|apply Q; now left]|]. apply IH; [intros y Y; apply Q; now right|intros y Y; apply N; now right].
Qed.
Lemma replaced_fun req rs cur m m' : replaced req rs cur m -> replaced req rs cur m' -> m = m'.
Proof. intros A B. apply replaced_iff in A, B. congruence. Qed.
