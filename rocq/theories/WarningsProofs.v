From Verif Require Import GoStr GoStrFacts GoSort GoSortFacts Types Osv OsvSpec OsvProofs MemDB Path Api ZipDB ZipSpec ZipProofs DirDB DirDBSpec DirDBProofs Lockfile Json JsonRound Warnings WarningsSpec.

Section WithErrors.
Variables json_err read_err : string -> string.
Variable write_err : option string.
Variable dec : string -> OSV * bool.

Lemma looked_iff wd e : looked_at wd e <-> has_prefix (fst e) wd = true /\ has_suffix (fst e) ".json" = true.
Proof. unfold looked_at. now rewrite has_prefix_iff, has_suffix_iff. Qed.
Lemma entries_told wd : forall l, exists os, archive_osvs wd dec l os /\ loaded_or_told json_err read_err dec wd l os (flat_map (zip_entry_says json_err read_err dec wd) l).
Proof.
  induction l as [|e l (os & A & T)]; [exists []; split; constructor|]. cbn [flat_map]. unfold zip_entry_says at 1.
  pose proof (looked_iff wd e) as L. destruct (has_prefix (fst e) wd) eqn:E1; cbn [negb].
  2:{ exists os. split; [|apply lt_other; [rewrite L; intros [X _]; discriminate|exact T]]. constructor; [|exact A]. intros o (P & _). apply has_prefix_iff in P. congruence. }
  destruct (has_suffix (fst e) ".json") eqn:E2; cbn [negb].
  2:{ exists os. split; [|apply lt_other; [rewrite L; intros [_ X]; discriminate|exact T]]. constructor; [|exact A]. intros o (_ & P & _). apply has_suffix_iff in P. congruence. }
  unfold zip_file_says. destruct (snd e) as [content|] eqn:E3.
  - destruct (dec content) as [o bad] eqn:E4. cbn [snd]. destruct bad.
    + exists os. split; [constructor; [|exact A]; intros o' (_ & _ & c & C & D); congruence|]. cbn [app]. apply lt_told; [now apply L| |exact T].
      apply (zn_invalid json_err read_err dec e content); [exact E3|now rewrite E4].
    + exists (o :: os). assert (W : wanted wd dec e o). { split; [now apply has_prefix_iff|]. split; [now apply has_suffix_iff|]. eauto. }
      split; [now constructor|]. now apply lt_loaded.
  - exists os. split; [constructor; [|exact A]; intros o' (_ & _ & c & C & D); congruence|]. cbn [app]. apply lt_told; [now apply L| |exact T]. now apply zn_unreadable.
Qed.
Theorem zip_told unzip path url wd offline pkgs file answer db date w rqs :
  zip_load unzip dec url wd offline pkgs file answer = (Ok (inr (db, date)), w, rqs) ->
  exists body entries os ts, f_result (fetch_zip url offline file answer) = Ok (inr (body, date)) /\ unzip body = Some entries
    /\ db = load_all pkgs os /\ loaded_or_told json_err read_err dec wd entries os ts
    /\ zip_load_says json_err read_err write_err dec unzip path url wd offline file answer
       = cache_says json_err path file ++ write_says write_err path w ++ ts.
Proof.
  intros H. apply zip_load_spec in H as (body & entries & os & F & U & A & ->). destruct (entries_told wd entries) as (os' & A' & T).
  rewrite (archive_fun _ _ _ _ _ A' A) in T. exists body, entries, os, (flat_map (zip_entry_says json_err read_err dec wd) entries).
  split; [now rewrite F|]. split; [exact U|]. split; [reflexivity|]. split; [exact T|]. unfold zip_load_says. rewrite F. cbn [f_write f_result]. now rewrite U.
Qed.
Lemma count_load pkgs : forall os db, m_count (fold_left (fun db o => add_vulnerability db o pkgs) os db) = (m_count db + List.length os)%nat.
Proof.
  induction os as [|o os IH]; intros db; cbn [fold_left List.length]; [lia|]. rewrite IH. unfold add_vulnerability. destruct (_ && _); cbn [m_count]; lia.
Qed.
Theorem told_count wd pkgs entries os ts : loaded_or_told json_err read_err dec wd entries os ts ->
  (m_count (load_all pkgs os) + List.length ts)%nat = List.length (filter (fun e => has_prefix (fst e) wd && has_suffix (fst e) ".json") entries).
Proof.
  intros H. unfold load_all. rewrite count_load. cbn [m_count empty_db]. induction H as [|e l o os ts W T IH|e l os t ts L N T IH|e l os ts L T IH]; cbn [filter List.length]; [reflexivity|..].
  - destruct W as (P & Q & _). apply has_prefix_iff in P. apply has_suffix_iff in Q. rewrite P, Q. cbn [andb List.length]. lia.
  - apply looked_iff in L as [-> ->]. cbn [andb List.length]. lia.
  - rewrite looked_iff in L. destruct (has_prefix (fst e) wd), (has_suffix (fst e) ".json"); cbn [andb]; try exact IH. elim L. auto.
Qed.

(** ** directories *)
Definition here (name : string) (n : node) : list string :=
  match n with
  | NGone => []
  | NFile (Some c) => if has_suffix name ".json" then if snd (dec c) then [invalid_notice json_err name c] else [] else []
  | NFile None | NDir (Some _) => if has_suffix name ".json" then [newline +s+ read_err name] else []
  | NDir None => [newline +s+ "    " +s+ read_err name]
  end.
Fixpoint notices (name : string) (n : node) : list (list string * string) :=
  map (fun t => ([], t)) (here name n)
  ++ match n with
     | NDir (Some l) => flat_map (fun kv => match kv with (k, c) => map (fun po => (k :: fst po, snd po)) (notices k c) end) l
     | _ => []
     end.
Notation say := (dir_visits_say json_err read_err dec).
Lemma says_app a b : (forall c, In c a -> w_info c <> INone) -> say (a ++ b) = say a ++ say b.
Proof.
  induction a as [|c a IH]; intros H; [reflexivity|]. cbn [app dir_visits_say].
  assert (X : snd (dir_visit_says json_err read_err dec c) = true).
  { unfold dir_visit_says. specialize (H c (or_introl eq_refl)). destruct (w_info c) as [[x|]|[|]|]; try congruence; try reflexivity; destruct (negb _); reflexivity. }
  destruct (dir_visit_says json_err read_err dec c) as [s b0]. cbn [snd] in X. subst b0. rewrite IH by (intros c' I; apply H; now right). now rewrite app_assoc.
Qed.
Lemma walk_info n : (forall p, ~ at_path n p NGone) -> forall name c, In c (walk name n) -> w_info c <> INone.
Proof.
  induction n as [c| | |l IH] using node_ind'; intros G name c0.
  - intros [<-|[]]. discriminate.
  - elim (G [] (ap_here _)).
  - intros [<-|[]]. discriminate.
  - cbn [walk]. intros [<-|I]; [discriminate|]. apply in_flat_map in I as ([k c] & I & J). rewrite Forall_forall in IH. apply (IH _ I) with (name := k); [|exact J].
    intros p P. apply (G (k :: p)). now apply ap_below with (c := c).
Qed.
Lemma walk_says n : (forall p, ~ at_path n p NGone) -> forall name, say (walk name n) = map snd (notices name n).
Proof.
  induction n as [c| | |l IH] using node_ind'; intros G name.
  - cbn. unfold dir_visit_says. cbn. destruct (has_suffix name ".json"), c as [c|]; cbn; try reflexivity. now destruct (snd (dec c)).
  - elim (G [] (ap_here _)).
  - reflexivity.
  - cbn [walk notices]. change (mkCall name (IDir true) :: ?x) with ([mkCall name (IDir true)] ++ x). rewrite says_app by (intros c [<-|[]]; discriminate).
    rewrite map_app. f_equal; [cbn; unfold dir_visit_says; cbn; now destruct (has_suffix name ".json")|].
    assert (G' : forall k c p, In (k, c) l -> ~ at_path c p NGone) by (intros k c p I X; apply (G (k :: p)); now apply ap_below with (c := c)).
    clear G. induction l as [|[k c] l IHl]; [reflexivity|]. inversion IH as [|? ? Hc Hl]; subst. cbn [flat_map]. rewrite says_app.
    + rewrite map_app, map_map. cbn [snd] in *. rewrite Hc by (intros p; apply (G' k); now left). f_equal. apply IHl; [exact Hl|]. intros k' c' p I. apply (G' k'). now right.
    + intros c0. apply walk_info. intros p. apply (G' k). now left.
Qed.
Lemma last_irr (a : string) q (d d' : string) : last (a :: q) d = last (a :: q) d'.
Proof. revert a. induction q as [|b q IH]; intros a; [reflexivity|]. change (last (b :: q) d = last (b :: q) d'). apply IH. Qed.
Lemma last_cons (k : string) q name : last (k :: q) name = last q k.
Proof. destruct q as [|a q]; [reflexivity|]. change (last (a :: q) name = last (a :: q) k). apply last_irr. Qed.
Lemma here_at name n t : In t (here name n) -> dir_notice json_err read_err dec name n [] t.
Proof.
  destruct n as [[c|]|[l|]|]; cbn [here]; intros H.
  - destruct (has_suffix name ".json") eqn:S; [|destruct H]. destruct (snd (dec c)) eqn:B; [|destruct H]. destruct H as [<-|[]].
    apply (dn_invalid json_err read_err dec name _ [] c); [constructor|now apply has_suffix_iff|exact B].
  - destruct (has_suffix name ".json") eqn:S; [|destruct H]. destruct H as [<-|[]]. apply (dn_unreadable json_err read_err dec name _ []); [constructor|now apply has_suffix_iff].
  - destruct (has_suffix name ".json") eqn:S; [|destruct H]. destruct H as [<-|[]]. apply (dn_directory json_err read_err dec name _ [] l); [constructor|now apply has_suffix_iff].
  - destruct H as [<-|[]]. apply (dn_unlisted json_err read_err dec name _ []). constructor.
  - destruct H.
Qed.
Lemma notice_below name k c l q t : In (k, c) l -> dir_notice json_err read_err dec k c q t -> dir_notice json_err read_err dec name (NDir (Some l)) (k :: q) t.
Proof.
  intros I [content P S B|P S|l' P S|P]; rewrite <- (last_cons k q name) in *; [eapply dn_invalid|eapply dn_unreadable|eapply dn_directory|eapply dn_unlisted]; eauto using ap_below.
Qed.
Lemma notice_up name k l q t : dir_notice json_err read_err dec name (NDir (Some l)) (k :: q) t -> exists c, In (k, c) l /\ dir_notice json_err read_err dec k c q t.
Proof.
  intros [content P S B|P S|l' P S|P]; rewrite last_cons in *; apply at_path_inv in P as [[X _]|(k' & c & q' & X & I & P)]; try discriminate; injection X as <- <-; exists c; (split; [exact I|]);
    [eapply dn_invalid|eapply dn_unreadable|eapply dn_directory|eapply dn_unlisted]; eauto.
Qed.
Lemma notices_at n : forall name q t, In (q, t) (notices name n) <-> dir_notice json_err read_err dec name n q t.
Proof.
  assert (HERE : forall name m t, dir_notice json_err read_err dec name m [] t -> In t (here name m)).
  { intros name m t [content P S B|P S|l' P S|P]; cbn [last] in *; inversion P; subst; cbn [here]; try (apply has_suffix_iff in S; rewrite S); try rewrite B; left; reflexivity. }
  induction n as [c| | |l IH] using node_ind'; intros name q t.
  1-3: cbn [notices]; rewrite app_nil_r, in_map_iff; split; [intros (t' & E & H); injection E as <- <-; now apply here_at|];
    intros H; assert (q = []) as -> by (destruct H as [x P _ _|P _|x P _|P]; apply at_path_leaf in P; try discriminate; apply P); exists t; auto.
  cbn [notices]. rewrite in_app_iff, in_map_iff, in_flat_map. rewrite Forall_forall in IH. split.
  - intros [(t' & E & H)|([k c] & I & H)]; [injection E as <- <-; now apply here_at|]. apply in_map_iff in H as ([q' t'] & E & H). cbn in E. injection E as <- <-.
    apply notice_below with (c := c); [exact I|]. now apply (IH _ I).
  - intros H. destruct q as [|k q]; [left; exists t; split; [reflexivity|now apply HERE]|]. apply notice_up in H as (c & I & H). right. exists (k, c). split; [exact I|].
    apply in_map_iff. exists (q, t). split; [reflexivity|]. now apply (IH _ I).
Qed.
Lemma notices_sorted n : sorted_node n -> forall name, StronglySorted path_lt (map fst (notices name n)).
Proof.
  induction n as [c| | |l IH] using node_ind'; intros S name.
  1-3: cbn [notices]; rewrite app_nil_r, map_map; cbn [fst]; match goal with |- context [here ?a ?b] => assert (X : (List.length (here a b) <= 1)%nat) by (destruct c as [c|] || idtac; cbn [here]; repeat match goal with |- context [if ?x then _ else _] => destruct x end; cbn; lia) end;
    destruct (here _ _) as [|x [|y r]]; cbn in X |- *; try lia; repeat constructor.
  cbn [notices]. inversion S as [| | |l' Hl Hf]; subst. clear S. rewrite map_app. apply StronglySorted_app. split; [|split].
  - rewrite map_map. cbn [fst here]. destruct (has_suffix name ".json"); repeat constructor.
  - induction l as [|[k c] l IHl]; [constructor|]. inversion IH as [|? ? Hc Hcl]; subst. inversion Hl as [|? ? Hl' Hk]; subst. inversion Hf as [|? ? Hfc Hfl]; subst.
    cbn [flat_map]. rewrite map_app. apply StronglySorted_app. split; [|split].
    + rewrite map_map. cbn [fst snd] in *. specialize (Hc Hfc k). clear - Hc. revert Hc. generalize (notices k c). intros r0 Hc. induction r0 as [|[p o] r IHr]; [constructor|].
      cbn [map fst] in *. inversion Hc as [|? ? H1 H2]; subst. constructor; [now apply IHr|]. rewrite Forall_map in *. eapply Forall_impl; [|exact H2]. intros a Ha. now apply pl_tail.
    + now apply IHl.
    + intros a b Ha Hb. rewrite map_map in Ha. apply in_map_iff in Ha. destruct Ha as (x & <- & _). cbn [fst].
      apply in_map_iff in Hb. destruct Hb as ([q o] & <- & Hb). cbn [fst]. apply in_flat_map in Hb. destruct Hb as ([k' c'] & Hin & Hb).
      apply in_map_iff in Hb. destruct Hb as (y & E & _). injection E as <- <-. apply pl_head. rewrite Forall_forall in Hk. exact (Hk _ Hin).
  - intros a b Ha Hb. rewrite map_map in Ha. apply in_map_iff in Ha. destruct Ha as (x & <- & _). cbn [fst].
    apply in_map_iff in Hb. destruct Hb as ([q o] & <- & Hb). cbn [fst]. apply in_flat_map in Hb. destruct Hb as ([k' c'] & Hin & Hb).
    apply in_map_iff in Hb. destruct Hb as (y & E & _). injection E as <- <-. constructor.
Qed.
Theorem dir_told parse_uri fs url wd u : (exists r, url = "file:" +s+ r) -> parse_uri url = Some u ->
  let p := path_join [trim_prefix (u_path u) "/"; wd] in
  sorted_node (fs p) -> ~ vanished (fs p) ->
  exists ts, dir_load_says json_err read_err dec parse_uri fs url wd = map snd ts ++ (match ts with [] => [] | _ => [newline] end)
    /\ (forall q t, In (q, t) ts <-> dir_notice json_err read_err dec (path_base p) (fs p) q t)
    /\ NoDup (map fst ts) /\ StronglySorted path_lt (map fst ts).
Proof.
  intros U H p S V. exists (notices (path_base p) (fs p)). pose proof (notices_sorted _ S (path_base p)) as K.
  split; [|split; [apply notices_at|split; [now apply sorted_nodup|exact K]]].
  unfold dir_load_says. apply has_prefix_iff in U. rewrite U, H. cbn [negb]. fold p. rewrite walk_says by (intros q Q; apply V; now exists q).
  rewrite map_length. destruct (notices (path_base p) (fs p)); reflexivity.
Qed.
(** a file that should hold an advisory is loaded or told of *)
Theorem dir_no_loss name root q c : at_path root q (NFile c) -> (exists stem, last q name = stem +s+ ".json") ->
  (exists o, advisory_at dec name root q o) \/ exists t, dir_notice json_err read_err dec name root q t.
Proof.
  intros P S. destruct c as [content|]; [|right; eexists; now apply dn_unreadable]. destruct (dec content) as [o bad] eqn:E. destruct bad.
  - right. exists (invalid_notice json_err (last q name) content). apply dn_invalid; auto. now rewrite E.
  - left. exists o, content. auto.
Qed.
End WithErrors.

(** ** entries that say nothing *)
Theorem affected_told S sem o pkg : exists pre post n, o_affected o = pre ++ post /\ bare_entries pkg pre n
  /\ is_affected_says S sem o pkg = repeat (bare_notice (o_id o)) n
  /\ (forall o', is_affected S sem o pkg = Ok (false, o') -> post = [])
  /\ (post = [] \/ exists a post', post = a :: post' /\ names a pkg /\ ~ bare a).
Proof.
  unfold is_affected_says, is_affected. generalize (o_id o) as id. intros id.
  assert (X : forall l, exists pre post n, l = pre ++ post /\ bare_entries pkg pre n /\ affected_says S sem id l pkg = repeat (bare_notice id) n
     /\ (forall l', affected_loop S sem l pkg = Ok (false, l') -> post = []) /\ (post = [] \/ exists a post', post = a :: post' /\ names a pkg /\ ~ bare a)).
  { induction l as [|a l (pre & post & n & -> & B & A & F & T)]; [exists [], [], 0%nat; repeat split; auto; constructor|].
    cbn [affected_says affected_loop].
    assert (N : names a pkg <-> ecosystems_equal (op_eco (a_pkg a)) (p_eco pkg) && seqb (normalized_name (a_pkg a)) (p_name pkg) = true).
    { unfold names. rewrite match_name_fun, andb_true_iff, ecosystems_equal_spec, seqb_eq. split; intros [X Y]; auto. }
    assert (R : bare a <-> Nat.eqb (List.length (a_ranges a)) 0 && Nat.eqb (List.length (a_versions a)) 0 = true).
    { unfold bare. destruct (a_ranges a), (a_versions a); cbn; split; try discriminate; try (intros [X Y]; discriminate); auto. }
    assert (GO : ~ (names a pkg /\ bare a) -> forall says, says = affected_says S sem id (pre ++ post) pkg ->
              forall r : res (bool * list Affected), (forall l', r = Ok (false, l') -> exists l'', affected_loop S sem (pre ++ post) pkg = Ok (false, l'')) ->
              exists pre0 post0 n0, a :: pre ++ post = pre0 ++ post0 /\ bare_entries pkg pre0 n0 /\ says = repeat (bare_notice id) n0
              /\ (forall l', r = Ok (false, l') -> post0 = []) /\ (post0 = [] \/ exists a post', post0 = a :: post' /\ names a pkg /\ ~ bare a)).
    { intros NB says -> r HR. exists (a :: pre), post, n. split; [reflexivity|]. split; [now apply be_other|]. split; [exact A|]. split; [|exact T]. intros l' E. destruct (HR _ E) as [l'' E']. eauto. }
    assert (NEXT : forall a' (l' : list Affected), rbind (affected_loop S sem (pre ++ post) pkg) (fun '(b, l'') => Ok (b, a' :: l'')) = Ok (false, l') -> exists l'', affected_loop S sem (pre ++ post) pkg = Ok (false, l'')).
    { intros a' l' E. destruct (affected_loop S sem (pre ++ post) pkg) as [[[] l'']|]; cbn [rbind] in E; try discriminate. eauto. }
    assert (STOP : names a pkg -> ~ bare a -> forall r : res (bool * list Affected), (forall l', r <> Ok (false, l')) ->
              exists pre0 post0 n0, a :: pre ++ post = pre0 ++ post0 /\ bare_entries pkg pre0 n0 /\ [] = repeat (bare_notice id) n0
              /\ (forall l', r = Ok (false, l') -> post0 = []) /\ (post0 = [] \/ exists a post', post0 = a :: post' /\ names a pkg /\ ~ bare a)).
    { intros NM NB r HR. exists [], (a :: pre ++ post), 0%nat. repeat split; [constructor|intros l' E; elim (HR _ E)|right; eauto]. }
    destruct (ecosystems_equal _ _ && _) eqn:E1.
    2:{ apply GO; [intros [X _]; apply N in X; discriminate|reflexivity|apply NEXT]. }
    assert (NM : names a pkg) by now apply N. destruct (Nat.eqb _ 0 && _) eqn:E2.
    { exists (a :: pre), post, (Datatypes.S n). split; [reflexivity|]. split; [apply be_bare; auto; now apply R|]. split; [cbn [repeat]; now rewrite <- A|].
      split; [|exact T]. intros l' E. destruct (NEXT _ _ E) as [l'' E']. eauto. }
    assert (NB : ~ bare a) by (intros X; apply R in X; discriminate).
    destruct (mem _ _); [apply STOP; auto; discriminate|]. destruct (affects_version _ _ _ _) as [[b rs]|]; cbn [rbind]; [|apply STOP; auto; discriminate].
    destruct b; [apply STOP; auto; discriminate|]. destruct (seqb (p_version pkg) ""); [apply STOP; auto; discriminate|]. apply GO; [intros [_ X]; auto|reflexivity|apply NEXT]. }
  destruct (X (o_affected o)) as (pre & post & n & E & B & A & F & T). exists pre, post, n. split; [exact E|]. split; [exact B|]. split; [exact A|]. split; [|exact T].
  intros o' H. destruct (affected_loop S sem (o_affected o) pkg) as [[b l]|]; cbn [rbind] in H; [|discriminate]. injection H as -> _. eauto.
Qed.

(** ** caches *)
Lemma torn_bad c p q : enc_cache c = p +s+ q -> q <> "" -> snd (dec_cache p) = true.
Proof.
  intros E Q. unfold dec_cache. destruct c as [c|].
  - unfold enc_cache in E. assert (H : Json.parse p = None).
    { destruct c as [u e d [b|]]; cbn [cache_json] in E; (eapply JsonRound.parse_prefix_obj; [|exact E|exact Q]); reflexivity. }
    now rewrite H.
  - change (enc_cache None) with "null" in E. assert (L : String.length p <> 4%nat).
    { intros L. apply (f_equal String.length) in E. rewrite slen_app, L in E. cbn in E. destruct q; [contradiction|cbn in E; lia]. }
    destruct (prefix_cases _ _ _ E) as (n & -> & Hn). cbn in Hn. destruct n as [|[|[|[|[|n]]]]]; try reflexivity; try (cbn in L; now elim L).
Qed.
Theorem cache_told json_err path url offline file answer contents p q :
  f_write (fetch_zip url offline file answer) = Some contents -> contents = p +s+ q ->
  cache_says json_err path (Some p) = if seqb q "" then [] else ["Failed to parse cache from " +s+ path +s+ ": " +s+ json_err p +s+ newline].
Proof.
  intros H E. destruct (fetch_writes _ _ _ _ _ H) as [x ->]. unfold cache_says. destruct (seqb_spec q "") as [->|N].
  - rewrite sapp_nil_r in E. subst p. destruct x as [c|]; [now rewrite cache_round|reflexivity].
  - now rewrite (torn_bad _ _ _ E N).
Qed.
