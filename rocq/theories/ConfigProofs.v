From Verif Require Import GoStr GoStrFacts Types MemDB Path PathFacts Api ZipDB ZipProofs DirDB DbConfig Configer ListSpec ConfigSpec ConfigExamples.

(** C27 *)
Lemma identifier_eq c : identifier c = if seqb (dc_wd c) "" then dc_type c +s+ "#" +s+ dc_url c else dc_type c +s+ "#" +s+ dc_url c +s+ "#" +s+ dc_wd c.
Proof. unfold identifier. destruct (seqb (dc_wd c) ""); cbn [negb]; [now rewrite sapp_nil_r|reflexivity]. Qed.
Lemma no_hash_split a b x y : has_char "#" a = false -> has_char "#" b = false -> a +s+ "#" +s+ x = b +s+ "#" +s+ y -> a = b /\ x = y.
Proof.
  intros Ha Hb E.
  pose proof (cut_char_found "#" a x Ha) as C1. pose proof (cut_char_found "#" b y Hb) as C2.
  change (String "#" x) with ("#" +s+ x) in C1. change (String "#" y) with ("#" +s+ y) in C2. rewrite E, C2 in C1. injection C1 as -> ->. auto.
Qed.
Lemma no_hash_split1 a b x : has_char "#" a = false -> has_char "#" b = false -> a <> b +s+ "#" +s+ x.
Proof. intros Ha Hb ->. rewrite !has_char_app in Ha. cbn in Ha. rewrite orb_true_r in Ha. discriminate. Qed.
Lemma identifier_inj c d :
  has_char "#" (dc_type c) = false -> has_char "#" (dc_type d) = false ->
  has_char "#" (dc_url c) = false -> has_char "#" (dc_url d) = false ->
  identifier c = identifier d <-> dc_type c = dc_type d /\ dc_url c = dc_url d /\ dc_wd c = dc_wd d.
Proof.
  intros Tc Td Uc Ud. rewrite !identifier_eq. split.
  - destruct (seqb_spec (dc_wd c) "") as [Ec|Ec], (seqb_spec (dc_wd d) "") as [Ed|Ed]; intros E; apply no_hash_split in E; try assumption; destruct E as [E1 E2].
    + rewrite Ec, Ed. auto.
    + elim (no_hash_split1 _ _ _ Uc Ud E2).
    + symmetry in E2. elim (no_hash_split1 _ _ _ Ud Uc E2).
    + apply no_hash_split in E2; try assumption. destruct E2. auto.
  - intros (-> & -> & ->). reflexivity.
Qed.

Lemma add_unique_fold acc l : exists r, fold_left add_unique l acc = acc ++ r /\ first_of_each identifier (map identifier acc) l r.
Proof.
  assert (G : forall seen acc l, (forall k, In k seen <-> In k (map identifier acc)) ->
            exists r, fold_left add_unique l acc = acc ++ r /\ first_of_each identifier seen l r).
  2:{ apply G. reflexivity. }
  clear. intros seen acc l. revert seen acc. induction l as [|c l IH]; intros seen acc H; cbn [fold_left].
  - exists []. rewrite app_nil_r. split; [reflexivity|constructor].
  - unfold add_unique at 2. destruct (existsb (fun d => seqb (identifier d) (identifier c)) acc) eqn:E.
    + destruct (IH seen acc H) as (r & Hr & F). exists r. split; [exact Hr|]. apply fe_seen; [|exact F]. apply H.
      apply existsb_exists in E. destruct E as (d & Hd & Ed). apply seqb_eq in Ed. rewrite <- Ed. now apply in_map.
    + destruct (IH (identifier c :: seen) (acc ++ [c])) as (r & Hr & F).
      { intros k. rewrite map_app, in_app_iff. cbn. rewrite H. tauto. }
      exists (c :: r). rewrite Hr, <- app_assoc. split; [reflexivity|]. apply fe_new; [|exact F]. rewrite H. intros Hin.
      apply in_map_iff in Hin. destruct Hin as (d & Ed & Hd). rewrite <- Bool.not_true_iff_false in E. apply E.
      apply existsb_exists. exists d. split; [exact Hd|]. apply seqb_eq. exact Ed.
Qed.
Lemma unique_concat ls acc : fold_left (fun acc dbs => fold_left add_unique dbs acc) ls acc = fold_left add_unique (List.concat ls) acc.
Proof. revert acc. induction ls as [|l ls IH]; intros acc; cbn; [reflexivity|]. now rewrite fold_left_app, IH. Qed.
Lemma unique_first ls : first_of_each identifier [] (List.concat ls) (unique_db_configs ls).
Proof.
  unfold unique_db_configs. rewrite unique_concat. destruct (add_unique_fold [] (List.concat ls)) as (r & -> & H). exact H.
Qed.

(** consequences of [first_of_each] *)
Lemma fe_incl {A K} (key : A -> K) seen l r : first_of_each key seen l r -> incl r l.
Proof. induction 1; intros x Hx; [destruct Hx|right; auto|destruct Hx as [->|Hx]; [now left|right; auto]]. Qed.
Lemma fe_fresh {A K} (key : A -> K) seen l r : first_of_each key seen l r -> forall a, In a r -> ~ In (key a) seen.
Proof. induction 1 as [|seen a l r Hin H IH|seen a l r Hn H IH]; intros x Hx; [destruct Hx|auto|]. destruct Hx as [<-|Hx]; [exact Hn|]. intros Hk. apply (IH x Hx). now right. Qed.
Lemma fe_nodup {A K} (key : A -> K) seen l r : first_of_each key seen l r -> NoDup (map key r).
Proof.
  induction 1 as [|seen a l r Hin H IH|seen a l r Hn H IH]; [constructor|exact IH|]. cbn. constructor; [|exact IH].
  intros Hk. apply in_map_iff in Hk. destruct Hk as (b & E & Hb). apply (fe_fresh _ _ _ _ H b Hb). rewrite E. now left.
Qed.
Lemma fe_covers {A K} (key : A -> K) seen l r : first_of_each key seen l r -> forall a, In a l -> In (key a) seen \/ In (key a) (map key r).
Proof.
  induction 1 as [|seen a l r Hin H IH|seen a l r Hn H IH]; intros x Hx; [destruct Hx|..].
  - destruct Hx as [<-|Hx]; [now left|auto].
  - destruct Hx as [<-|Hx]; [right; now left|]. destruct (IH x Hx) as [[E|Hs]|Hr]; [right; left; exact E|now left|right; now right].
Qed.
Lemma fe_fun {A K} (key : A -> K) seen l r r' : first_of_each key seen l r -> first_of_each key seen l r' -> r = r'.
Proof.
  intros H. revert r'. induction H as [|seen a l r Hin H IH|seen a l r Hn H IH]; intros r' K'; inversion K'; subst; try contradiction; auto. f_equal; auto.
Qed.
Lemma fe_id {A K} (key : A -> K) l : NoDup (map key l) -> forall seen, (forall a, In a l -> ~ In (key a) seen) -> first_of_each key seen l l.
Proof.
  induction l as [|a l IH]; intros N seen H; [constructor|]. cbn in N. inversion N as [|? ? Na Nl]; subst. apply fe_new; [apply H; now left|].
  apply IH; [exact Nl|]. intros b Hb [E|Hs]; [apply Na; rewrite E; now apply in_map|apply (H b); [now right|exact Hs]].
Qed.

(** C28 *)
Lemma infer_type_of r t : infer_type r = t <-> type_of r t.
Proof.
  unfold infer_type, type_of. destruct (seqb_spec (rd_type r) "") as [E|E]; cbn [negb].
  2:{ split; [intros <-; now left|]. intros [[_ ->]|[[H _]|[[H _]|[H _]]]]; [reflexivity|contradiction..]. }
  destruct (has_prefix (rd_url r) "file:/") eqn:Ef.
  { apply has_prefix_iff in Ef. split; [intros <-; right; now left|].
    intros [[H _]|[(_ & _ & ->)|[(_ & H & _)|(_ & H & _)]]]; [contradiction|reflexivity|destruct Ef as [x Ex]; now elim (H x)..]. }
  pose proof Ef as Ef'. rewrite has_prefix_false in Ef'.
  destruct (has_suffix (rd_url r) ".zip") eqn:Ez.
  { apply has_suffix_iff in Ez. split; [intros <-; right; right; now left|].
    intros [[H _]|[(_ & [x Ex] & _)|[(_ & _ & _ & ->)|(_ & _ & H & _)]]]; [contradiction|now elim (Ef' x)|reflexivity|destruct Ez as [x Ex]; now elim (H x)]. }
  assert (Ez' : forall x, rd_url r <> x +s+ ".zip").
  { intros x Hx. assert (has_suffix (rd_url r) ".zip" = true) by (apply has_suffix_iff; eauto). congruence. }
  split; [intros <-; right; right; now right|].
  intros [[H _]|[(_ & [x Ex] & _)|[(_ & _ & [x Ex] & _)|(_ & _ & _ & ->)]]]; [contradiction|now elim (Ef' x)|now elim (Ez' x)|reflexivity].
Qed.
Lemma loadable_dec t : negb (seqb t "zip") && negb (seqb t "api") && negb (seqb t "dir") = true <-> ~ loadable_type t.
Proof.
  unfold loadable_type. destruct (seqb_spec t "zip"), (seqb_spec t "api"), (seqb_spec t "dir"); cbn; split; intros H; try discriminate; tauto || (exfalso; tauto).
Qed.
Lemma named_spec name t url wd final : named name t url wd final <-> final = if seqb name "" then identifier (mkDC name t url wd) else name.
Proof.
  rewrite identifier_eq. cbn [dc_type dc_url dc_wd]. unfold named. destruct (seqb_spec name "") as [->|N].
  - destruct (seqb_spec wd "") as [->|W].
    + split; [intros [[H _]|[(_ & _ & H)|(_ & H & _)]]; [contradiction|exact H|contradiction]|intros H; right; left; auto].
    + split; [intros [[H _]|[(_ & H & _)|(_ & _ & H)]]; [contradiction|contradiction|exact H]|intros H; right; right; auto].
  - split; [intros [[_ H]|[(H & _)|(H & _)]]; [exact H|contradiction|contradiction]|intros H; left; auto].
Qed.
Lemma to_config_good parse r c : to_config parse r = inr c <-> accepted parse r c.
Proof.
  unfold to_config, accepted. destruct (parse (rd_url r)) as [u|]; [|split; [discriminate|intros [H _]; contradiction]].
  destruct (negb (seqb (infer_type r) "zip") && negb (seqb (infer_type r) "api") && negb (seqb (infer_type r) "dir")) eqn:E.
  - split; [discriminate|]. intros (_ & Ht & Hl & _). apply infer_type_of in Ht. rewrite Ht in E. apply loadable_dec in E. contradiction.
  - assert (L : loadable_type (infer_type r)).
    { unfold loadable_type. destruct (seqb_spec (infer_type r) "zip"); [now left|]. destruct (seqb_spec (infer_type r) "api"); [right; now left|].
      destruct (seqb_spec (infer_type r) "dir"); [right; now right|discriminate]. }
    split.
    + intros H. injection H as <-.
      assert (X : forall n, n = (if seqb (rd_name r) "" then identifier (mkDC (rd_name r) (infer_type r) (rd_url r) (rd_wd r)) else rd_name r) -> named (rd_name r) (infer_type r) (rd_url r) (rd_wd r) n).
      { intros n Hn. now apply named_spec. }
      destruct (seqb (rd_name r) "") eqn:En; cbn [dc_type dc_url dc_wd dc_name];
      (split; [discriminate|]); (split; [now apply infer_type_of|]); (split; [exact L|]); (split; [reflexivity|]); (split; [reflexivity|]); apply X; reflexivity.
    + intros (_ & Ht & _ & Hu & Hw & Hn). apply infer_type_of in Ht. apply named_spec in Hn. destruct c as [cn ct cu cw]. cbn [dc_type dc_url dc_wd dc_name] in *.
      subst. f_equal. destruct (seqb (rd_name r) ""); reflexivity.
Qed.
Lemma to_config_bad parse r e : to_config parse r = inl e <-> rejected parse r e.
Proof.
  unfold to_config, rejected. destruct (parse (rd_url r)) as [u|].
  2:{ split; [intros H; injection H as <-; left; auto|]. intros [[_ ->]|[H _]]; [reflexivity|contradiction]. }
  destruct (negb (seqb (infer_type r) "zip") && negb (seqb (infer_type r) "api") && negb (seqb (infer_type r) "dir")) eqn:E.
  - split.
    + intros H. injection H as <-. right. split; [discriminate|]. exists (infer_type r). split; [now apply infer_type_of|]. split; [now apply loadable_dec|reflexivity].
    + intros [[H _]|(_ & t & Ht & Hl & ->)]; [discriminate|]. apply infer_type_of in Ht. now rewrite Ht.
  - split; [discriminate|]. intros [[H _]|(_ & t & Ht & Hl & ->)]; [discriminate|]. apply infer_type_of in Ht. rewrite Ht in E. apply loadable_dec in Hl. congruence.
Qed.
Lemma to_configs_entries parse l : forall cs es, to_configs parse l = (cs, es) <-> entries parse l cs es.
Proof.
  induction l as [|r l IH]; intros cs es; cbn [to_configs].
  - split; [intros H; injection H as <- <-; constructor|intros H; inversion H; reflexivity].
  - destruct (to_configs parse l) as [cs0 es0]. split.
    + intros H. assert (K : entries parse l cs0 es0) by now apply IH. destruct (to_config parse r) as [e|c] eqn:E; injection H as <- <-.
      * apply en_bad; [now apply to_config_bad|exact K].
      * apply en_good; [now apply to_config_good|exact K].
    + intros H. inversion H as [|r' c l' cs' es' Ha Hl|r' e l' cs' es' Ha Hl]; subst.
      * apply to_config_good in Ha. rewrite Ha. apply IH in Hl. injection Hl as -> ->. reflexivity.
      * apply to_config_bad in Ha. rewrite Ha. apply IH in Hl. injection Hl as -> ->. reflexivity.
Qed.
Lemma load_unsupported W cache c offline batch names w reqs t :
  load_db W cache c offline batch names = (Ok (inl (LType t)), w, reqs) <-> (~ loadable_type (dc_type c) /\ t = dc_type c /\ w = None /\ reqs = []).
Proof.
  unfold load_db, loadable_type.
  destruct (seqb_spec (dc_type c) "zip") as [E|E].
  { split; [|intros (H & _); elim H; now left]. destruct (zip_load _ _ _ _ _ _ _ _) as [[r w'] reqs']. intros H. injection H as H _ _.
    destruct r as [[e|[db d]]|]; discriminate. }
  destruct (seqb_spec (dc_type c) "api") as [E2|E2].
  { split; [|intros (H & _); elim H; right; now left]. destruct (new_api_db _ _ _ _ _ _); discriminate. }
  destruct (seqb_spec (dc_type c) "dir") as [E3|E3].
  { split; [|intros (H & _); elim H; right; now right]. destruct (dir_load _ _ _ _ _ _); discriminate. }
  split; [intros H; injection H as <- <- <-|intros (_ & -> & -> & ->); reflexivity]. split; [tauto|auto].
Qed.

(** C29 *)
Lemma load_raw_spec dec fs path r : load_raw dec fs path = r <->
  match r with
  | inl (CNotExist p) => p = clean path /\ fs p = FNotExist
  | inl (CUnreadable p) => p = clean path /\ fs p = FError
  | inl (CYaml p) => p = clean path /\ exists s, fs p = FOk s /\ dec s = None
  | inr raw => usable dec (fs (clean path)) raw
  end.
Proof.
  unfold load_raw, usable. split.
  - intros <-. destruct (fs (clean path)) as [s| |] eqn:E; [|auto..]. destruct (dec s) as [raw|] eqn:Ed; eauto.
  - destruct r as [[p|p|p]|raw].
    + intros [-> ->]. reflexivity.
    + intros [-> ->]. reflexivity.
    + intros [-> (s & -> & ->)]. reflexivity.
    + intros (s & -> & ->). reflexivity.
Qed.
Lemma load_config_good parse dec fs path c errs : load_config parse dec fs path = inr (c, errs) <->
  exists raw, usable dec (fs (clean path)) raw /\ config_from parse (clean path) raw c errs.
Proof.
  unfold load_config, config_from. destruct (load_raw dec fs path) as [e|raw] eqn:E.
  - split; [discriminate|]. intros (raw & H & _). rewrite <- (load_raw_spec dec fs path (inr raw)) in H. congruence.
  - pose proof (proj1 (load_raw_spec dec fs path _) E) as U. cbn in U. split.
    + destruct (to_configs parse (rc_dbs raw)) as [dbs es] eqn:Et. intros H. injection H as <- <-. exists raw. split; [exact U|]. cbn. split; [reflexivity|]. split; [reflexivity|].
      now apply to_configs_entries.
    + intros (raw' & H & Hp & Hi & He). rewrite <- (load_raw_spec dec fs path (inr raw')) in H. assert (raw' = raw) by congruence. subst raw'.
      apply to_configs_entries in He. rewrite He. destruct c as [cp ci cd]. cbn in *. subst. reflexivity.
Qed.
Lemma load_config_bad parse dec fs path e : load_config parse dec fs path = inl e <-> load_raw dec fs path = inl e.
Proof.
  unfold load_config. destruct (load_raw dec fs path) as [e'|raw]; [split; congruence|]. destruct (to_configs _ _). split; discriminate.
Qed.

Section Find.
Variable parse : string -> option URL.
Variable dec : string -> option raw_config.
Variable fs : string -> fread.
Variable dir : string.
Let yml := clean (dir +s+ "/.osv-detector.yml").
Let yaml := clean (dir +s+ "/.osv-detector.yaml").
Lemma find_good c errs : find_config parse dec fs dir = inr (c, errs) <->
  (exists raw, usable dec (fs yml) raw /\ config_from parse yml raw c errs)
  \/ (fs yml = FNotExist /\ exists raw, usable dec (fs yaml) raw /\ config_from parse yaml raw c errs)
  \/ (fs yml = FNotExist /\ fs yaml = FNotExist /\ c = empty_config /\ errs = []).
Proof.
  unfold find_config. change (".osv-detector" +s+ ".yml") with ".osv-detector.yml". change (".osv-detector" +s+ ".yaml") with ".osv-detector.yaml".
  change ("/" +s+ ".osv-detector.yml") with "/.osv-detector.yml". change ("/" +s+ ".osv-detector.yaml") with "/.osv-detector.yaml".
  assert (U : forall p raw, usable dec (fs p) raw -> fs p <> FNotExist) by (intros p raw (s & -> & _); discriminate).
  destruct (load_config parse dec fs (dir +s+ "/.osv-detector.yml")) as [e|[c' errs']] eqn:E1.
  2:{ split.
      - intros H. left. apply load_config_good in E1. injection H as <- <-. exact E1.
      - apply load_config_good in E1. destruct E1 as (raw & Hu & Hc). fold yml in Hu, Hc. intros [H|[[H _]|[H _]]]; [|elim (U _ _ Hu H)..].
        apply load_config_good in H. assert (E : load_config parse dec fs (dir +s+ "/.osv-detector.yml") = inr (c', errs')) by (apply load_config_good; eauto). congruence. }
  assert (NG : ~ exists raw, usable dec (fs yml) raw /\ config_from parse yml raw c errs).
  { intros H. apply load_config_good in H. congruence. }
  apply load_config_bad in E1. pose proof (proj1 (load_raw_spec dec fs _ _) E1) as S1. fold yml in S1.
  destruct e as [p|p|p].
  2,3: split; [discriminate|]; intros [H|[[H _]|[H _]]]; [contradiction|..]; exfalso; destruct S1 as [-> S1]; fold yml in S1; try destruct S1 as (s & S1 & _); congruence.
  destruct S1 as [-> S1]. fold yml in S1.
  destruct (load_config parse dec fs (dir +s+ "/.osv-detector.yaml")) as [e|[c' errs']] eqn:E2.
  2:{ split.
      - intros H. right. left. split; [exact S1|]. apply load_config_good in E2. injection H as <- <-. exact E2.
      - apply load_config_good in E2. destruct E2 as (raw & Hu & Hc). fold yaml in Hu, Hc. intros [H|[[_ H]|(_ & H & _)]]; [contradiction| |elim (U _ _ Hu H)].
        apply load_config_good in H. assert (E : load_config parse dec fs (dir +s+ "/.osv-detector.yaml") = inr (c', errs')) by (apply load_config_good; eauto). congruence. }
  assert (NG2 : ~ exists raw, usable dec (fs yaml) raw /\ config_from parse yaml raw c errs).
  { intros H. apply load_config_good in H. congruence. }
  apply load_config_bad in E2. pose proof (proj1 (load_raw_spec dec fs _ _) E2) as S2. fold yaml in S2.
  destruct e as [p|p|p].
  2,3: split; [discriminate|]; intros [H|[[_ H]|(_ & H & _)]]; [contradiction|contradiction|]; exfalso; destruct S2 as [-> S2]; fold yaml in S2; try destruct S2 as (s & S2 & _); congruence.
  destruct S2 as [-> S2]. fold yaml in S2. split.
  - intros H. injection H as <- <-. auto 8.
  - intros [H|[[_ H]|(_ & _ & -> & ->)]]; [contradiction|contradiction|reflexivity].
Qed.
Lemma find_bad : (exists e, find_config parse dec fs dir = inl e) <->
  (broken dec (fs yml) \/ (fs yml = FNotExist /\ broken dec (fs yaml))).
Proof.
  unfold find_config. change (".osv-detector" +s+ ".yml") with ".osv-detector.yml". change (".osv-detector" +s+ ".yaml") with ".osv-detector.yaml".
  change ("/" +s+ ".osv-detector.yml") with "/.osv-detector.yml". change ("/" +s+ ".osv-detector.yaml") with "/.osv-detector.yaml".
  unfold load_config, load_raw, broken. fold yml yaml.
  destruct (fs yml) as [s| |].
  - destruct (dec s) as [raw|] eqn:Ed.
    + destruct (to_configs parse (rc_dbs raw)). split; [intros [e H]; discriminate|].
      intros [[H|(s' & H & Hd)]|[H _]]; try discriminate. injection H as <-. congruence.
    + split; [intros _; left; right; eauto|eauto].
  - destruct (fs yaml) as [s| |].
    + destruct (dec s) as [raw|] eqn:Ed.
      * destruct (to_configs parse (rc_dbs raw)). split; [intros [e H]; discriminate|].
        intros [[H|(s' & H & Hd)]|[_ [H|(s' & H & Hd)]]]; try discriminate. injection H as <-. congruence.
      * split; [intros _; right; split; [reflexivity|right; eauto]|eauto].
    + split; [intros [e H]; discriminate|]. intros [[H|(s' & H & Hd)]|[_ [H|(s' & H & Hd)]]]; discriminate.
    + split; [intros _; right; split; [reflexivity|left; reflexivity]|eauto].
  - split; [intros _; left; left; reflexivity|eauto].
Qed.
End Find.
Lemma find_path l name : Forall elem l -> elem name -> clean (abs_path l +s+ "/" +s+ name) = abs_path (l ++ [name]).
Proof.
  intros Hl Hn. destruct l as [|a l].
  - change (abs_path [] +s+ "/" +s+ name) with ("/" +s+ "/" +s+ name). unfold clean.
    assert (E : clean_elems ("/" +s+ "/" +s+ name) = [name]).
    { unfold clean_elems. change (rooted ("/" +s+ "/" +s+ name)) with true.
      assert (Es : split_char "/" ("/" +s+ "/" +s+ name) = ["";"";name]).
      { cbn. rewrite split_char_nochar by apply Hn. reflexivity. }
      rewrite Es. cbn [fold_left]. change (clean_step true (clean_step true [] "") "") with (@nil string).
      change (clean_step true [] name) with (fold_left (clean_step true) [name] []). rewrite clean_steps by (constructor; [exact Hn|constructor]). reflexivity. }
    rewrite E. reflexivity.
  - rewrite <- (clean_abs ((a :: l) ++ [name])) by (apply Forall_app; split; [exact Hl|constructor; [exact Hn|constructor]]).
    f_equal. unfold abs_path. rewrite join_app by discriminate. rewrite !sapp_assoc. reflexivity.
Qed.

(** C30 *)
Lemma update_spec dec enc fs openable path ignores new :
  update_with_ignores dec enc fs openable path ignores = inr new <->
  exists raw, usable dec (fs (clean path)) raw /\ openable path = true /\ new = enc (mkRC ignores (rc_dbs raw)).
Proof.
  unfold update_with_ignores. destruct (load_raw dec fs path) as [e|raw] eqn:E.
  - split; [discriminate|]. intros (raw & H & _). rewrite <- (load_raw_spec dec fs path (inr raw)) in H. congruence.
  - pose proof (proj1 (load_raw_spec dec fs path _) E) as U. cbn in U. destruct (openable path) eqn:O; cbn [negb].
    + split; [intros H; injection H as <-; eauto|]. intros (raw' & H & _ & ->). rewrite <- (load_raw_spec dec fs path (inr raw')) in H.
      assert (raw' = raw) by congruence. now subst.
    + split; [discriminate|]. intros (_ & _ & H & _). congruence.
Qed.
Lemma update_keeps parse dec enc fs openable path ignores new raw c errs :
  dec (enc (mkRC ignores (rc_dbs raw))) = Some (mkRC ignores (rc_dbs raw)) ->
  update_with_ignores dec enc fs openable path ignores = inr new ->
  usable dec (fs (clean path)) raw -> load_config parse dec fs path = inr (c, errs) ->
  dec new = Some (mkRC ignores (rc_dbs raw))
  /\ load_config parse dec (fun p => if seqb p (clean path) then FOk new else fs p) path = inr (mkCfg (cf_path c) ignores (cf_dbs c), errs).
Proof.
  intros Hyaml Hu Hraw Hload. apply update_spec in Hu. destruct Hu as (raw' & Hr' & _ & ->).
  assert (raw' = raw).
  { rewrite <- (load_raw_spec dec fs path (inr raw)) in Hraw. rewrite <- (load_raw_spec dec fs path (inr raw')) in Hr'. congruence. }
  subst raw'. split; [exact Hyaml|]. apply load_config_good in Hload. destruct Hload as (raw' & Hr2 & Hp & Hi & He).
  assert (raw' = raw).
  { rewrite <- (load_raw_spec dec fs path (inr raw)) in Hraw. rewrite <- (load_raw_spec dec fs path (inr raw')) in Hr2. congruence. }
  subst raw'. apply load_config_good. exists (mkRC ignores (rc_dbs raw)). rewrite seqb_refl. split.
  - exists (enc (mkRC ignores (rc_dbs raw))). split; [reflexivity|exact Hyaml].
  - split; [cbn; congruence|]. split; [reflexivity|exact He].
Qed.

Lemma unique_once configs :
  NoDup (map identifier (unique_db_configs configs))
  /\ incl (unique_db_configs configs) (List.concat configs)
  /\ (forall c, In c (List.concat configs) -> In (identifier c) (map identifier (unique_db_configs configs))).
Proof.
  pose proof (unique_first configs) as H. split; [exact (fe_nodup _ _ _ _ H)|]. split; [exact (fe_incl _ _ _ _ H)|].
  intros c Hc. destruct (fe_covers _ _ _ _ H c Hc) as [[]|K]. exact K.
Qed.
Lemma identifier_clash : exists c d, dc_url c <> dc_url d /\ dc_type c = dc_type d /\ unique_db_configs [[c; d]] = [c].
Proof. exists (mkDC "a" "zip" "u#v" ""), (mkDC "b" "zip" "u" "v"). split; [discriminate|]. split; reflexivity. Qed.
Lemma load_zip W cache c offline batch names r w reqs : dc_type c = "zip" ->
  zip_load (w_unzip W) (w_dec_osv W) (dc_url c) (dc_wd c) offline names cache (w_answer W) = (r, w, reqs) ->
  exists r', load_db W cache c offline batch names = (r', w, reqs)
    /\ (forall db date, r = Ok (inr (db, date)) -> exists d, r' = Ok (inr d) /\ d = ZipD (dc_name c) (identifier c) db date)
    /\ (forall e, r = Ok (inl e) -> r' = Ok (inl (LZip e))) /\ (r = Panic -> r' = Panic).
Proof.
  intros E H. unfold load_db. rewrite E, H. cbn. eexists. split; [reflexivity|].
  split; [intros db date ->; eexists; split; reflexivity|]. split; [intros e ->; reflexivity|intros ->; reflexivity].
Qed.
Lemma load_api W cache c offline batch names : dc_type c = "api" ->
  load_db W cache c offline batch names =
  (match new_api_db (w_parse_uri W) (dc_name c) (identifier c) (dc_url c) offline batch with
   | inl e => Ok (inl (LApi e)) | inr a => Ok (inr (ApiD a)) end, None, []).
Proof. intros E. unfold load_db. rewrite E. reflexivity. Qed.
Lemma load_dir W cache c offline batch names : dc_type c = "dir" ->
  load_db W cache c offline batch names =
  (match dir_load (w_dec_osv W) (w_parse_uri W) (w_tree W) (dc_url c) (dc_wd c) names with
   | inl e => Ok (inl (LDir e)) | inr db => Ok (inr (DirD (dc_name c) (identifier c) db)) end, None, []).
Proof. intros E. unfold load_db. rewrite E. reflexivity. Qed.
Lemma update_crash : exists dec enc fs path ignores new torn c,
  (forall raw, raw = mkRC ignores ex_raws -> dec (enc raw) = Some raw)
  /\ update_with_ignores dec enc fs (fun _ => true) path ignores = inr new /\ written None new (Some torn)
  /\ load_config ex_parse_uri dec fs path = inr (c, [BadURL; BadType "ftp"]) /\ cf_dbs c = ex_dbs
  /\ load_config ex_parse_uri dec (fun p => if seqb p (clean path) then FOk torn else fs p) path = inr (mkCfg (clean path) [] [], []).
Proof.
  exists yj_dec, yj_enc, (fun _ => FOk (yj_enc ex_raw)), "c.yml", ["A"]. do 3 eexists.
  split; [intros raw ->; vm_compute; reflexivity|].
  split; [vm_compute; reflexivity|]. split; [exact (wr_part _ _ "" _ eq_refl)|]. split; [vm_compute; reflexivity|].
  split; [reflexivity|]. vm_compute. reflexivity.
Qed.
