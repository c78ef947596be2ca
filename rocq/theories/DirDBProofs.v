From Verif Require Import GoStr GoStrFacts GoSort GoSortFacts Types Path PathFacts MemDB Api DirDB DirDBSpec.

Section NodeInd.
Variable P : node -> Prop.
Hypothesis Hfile : forall c, P (NFile c).
Hypothesis Hgone : P NGone.
Hypothesis Hnone : P (NDir None).
Hypothesis Hdir : forall l, Forall (fun kc => P (snd kc)) l -> P (NDir (Some l)).
Fixpoint node_ind' (n : node) : P n :=
  match n with
  | NFile c => Hfile c
  | NGone => Hgone
  | NDir None => Hnone
  | NDir (Some l) => Hdir l ((fix go l : Forall (fun kc => P (snd kc)) l :=
      match l with [] => Forall_nil _ | (k, c) :: l' => Forall_cons (k, c) (node_ind' c) (go l') end) l)
  end.
End NodeInd.

Lemma at_path_inv l p m : at_path (NDir (Some l)) p m -> (p = [] /\ m = NDir (Some l)) \/ exists k c q, p = k :: q /\ In (k, c) l /\ at_path c q m.
Proof. intros H. inversion H; subst; [now left|right; eauto 8]. Qed.
Lemma at_path_leaf n p m : (forall l, n <> NDir (Some l)) -> at_path n p m -> p = [] /\ m = n.
Proof. intros N H. inversion H; subst; [auto|elim (N l eq_refl)]. Qed.

Section Dec.
Variable dec : string -> OSV * bool.

Lemma dir_visits_app names db a b : dir_visits dec names db (a ++ b) =
  match dir_visits dec names db a with Some db' => dir_visits dec names db' b | None => None end.
Proof. revert db. induction a as [|c a IH]; intros db; cbn; [reflexivity|]. destruct (dir_visit dec names db c); [apply IH|reflexivity]. Qed.

Definition adds (names : list string) (db : memDB) (os : list OSV) : memDB := fold_left (fun db o => add_vulnerability db o names) os db.

(** the listing of one node: paths with advisories, in walk order *)
Definition leaf_listing (name : string) (c : option string) : list (list string * OSV) :=
  match c with
  | Some content => if has_suffix name ".json" then let '(o, bad) := dec content in if bad then [] else [([], o)] else []
  | None => []
  end.
Fixpoint listing (name : string) (n : node) : list (list string * OSV) :=
  match n with
  | NGone => []
  | NFile c => leaf_listing name c
  | NDir None => []
  | NDir (Some l) => flat_map (fun kv => match kv with (k, c) => map (fun po => (k :: fst po, snd po)) (listing k c) end) l
  end.

Lemma visits_listing names n : (forall p, ~ at_path n p NGone) -> forall name db,
  dir_visits dec names db (walk name n) = Some (adds names db (map snd (listing name n))).
Proof.
  induction n as [c| | |l IH] using node_ind'; intros Hg name db.
  - cbn. unfold dir_visit, leaf_listing. cbn. destruct (has_suffix name ".json"); cbn; destruct c as [c|]; try reflexivity.
    destruct (dec c) as [o bad]; destruct bad; reflexivity.
  - elim (Hg [] (ap_here _)).
  - reflexivity.
  - cbn [walk dir_visits]. assert (E : dir_visit dec names db (mkCall name (IDir true)) = Some db).
    { unfold dir_visit. cbn. destruct (has_suffix name ".json"); reflexivity. }
    rewrite E. clear E. cbn [listing].
    assert (Hg' : forall k c p, In (k, c) l -> ~ at_path c p NGone).
    { intros k c p Hin H. apply (Hg (k :: p)). now apply ap_below with (c := c). }
    clear Hg. revert db. induction l as [|[k c] l IHl]; intros db; [reflexivity|].
    inversion IH as [|? ? Hc Hl]; subst. cbn [flat_map map]. rewrite dir_visits_app. cbn [snd] in Hc. rewrite Hc by (intros p; apply (Hg' k); now left).
    rewrite map_app, map_map. cbn [snd]. unfold adds at 2. rewrite fold_left_app. apply IHl; [exact Hl|]. intros k' c' p Hin. apply (Hg' k'). now right.
Qed.
Lemma visits_gone names n : (exists p, at_path n p NGone) -> forall name db, dir_visits dec names db (walk name n) = None.
Proof.
  induction n as [c| | |l IH] using node_ind'; intros [p Hp] name db.
  - apply at_path_leaf in Hp; [|discriminate]. now destruct Hp.
  - reflexivity.
  - apply at_path_leaf in Hp; [|discriminate]. now destruct Hp.
  - apply at_path_inv in Hp. destruct Hp as [[_ E]|(k & c & q & -> & Hin & Hp)]; [discriminate|].
    cbn [walk dir_visits]. destruct (dir_visit dec names db (mkCall name (IDir true))) as [db'|]; [|reflexivity]. clear db. rename db' into db.
    assert (Hc : exists k c, In (k, c) l /\ exists p, at_path c p NGone) by eauto. clear k c q Hin Hp.
    revert db. induction l as [|[k c] l IHl]; intros db; [destruct Hc as (k & c & [] & _)|].
    inversion IH as [|? ? Hn Hl]; subst. cbn [flat_map]. rewrite dir_visits_app. cbn [snd] in Hn.
    destruct Hc as (k' & c' & [E|Hin] & Hp).
    + injection E as -> ->. now rewrite Hn.
    + destruct (dir_visits dec names db (walk k c)) as [db'|]; [|reflexivity]. apply IHl; eauto.
Qed.

Lemma listing_at n : forall name p o, In (p, o) (listing name n) <-> advisory_at dec name n p o.
Proof.
  induction n as [c| | |l IH] using node_ind'; intros name p o.
  - cbn. unfold leaf_listing. split.
    + destruct c as [c|]; [|intros []]. destruct (has_suffix name ".json") eqn:Es; [|intros []].
      destruct (dec c) as [o' bad] eqn:Ed. destruct bad; [intros []|]. intros [E|[]]. injection E as <- <-.
      exists c. split; [constructor|]. split; [now apply has_suffix_iff|exact Ed].
    + intros (content & Hp & Hs & Hd). apply at_path_leaf in Hp; [|discriminate]. destruct Hp as [-> E]. injection E as <-.
      cbn [last] in Hs. apply has_suffix_iff in Hs. rewrite Hs, Hd. now left.
  - split; [intros []|]. intros (content & Hp & _). apply at_path_leaf in Hp; [|discriminate]. now destruct Hp.
  - split; [intros []|]. intros (content & Hp & _). apply at_path_leaf in Hp; [|discriminate]. now destruct Hp.
  - cbn [listing]. rewrite in_flat_map. rewrite Forall_forall in IH. split.
    + intros ([k c] & Hin & H). apply in_map_iff in H. destruct H as ([q o'] & E & H). cbn in E. injection E as <- <-.
      apply (IH _ Hin) in H. destruct H as (content & Hp & Hs & Hd). exists content. split; [now apply ap_below with (c := c)|].
      split; [|exact Hd]. destruct q; [exact Hs|]. change (last (k :: s :: q) name) with (last (s :: q) name).
      assert (El : forall (a : string) q d d', last (a :: q) d = last (a :: q) d').
      { intros a q' d d'. revert a. induction q' as [|b q' IHq]; intros a; [reflexivity|]. change (last (b :: q') d = last (b :: q') d'). apply IHq. }
      rewrite (El s q name k). exact Hs.
    + intros (content & Hp & Hs & Hd). apply at_path_inv in Hp. destruct Hp as [[_ E]|(k & c & q & -> & Hin & Hp)]; [discriminate|].
      exists (k, c). split; [exact Hin|]. apply in_map_iff. exists (q, o). split; [reflexivity|]. apply (IH _ Hin). exists content.
      split; [exact Hp|]. split; [|exact Hd]. destruct q; [exact Hs|]. change (last (k :: s :: q) name) with (last (s :: q) name) in Hs.
      assert (El : forall (a : string) q d d', last (a :: q) d = last (a :: q) d').
      { intros a q' d d'. revert a. induction q' as [|b q' IHq]; intros a; [reflexivity|]. change (last (b :: q') d = last (b :: q') d'). apply IHq. }
      rewrite (El s q k name). exact Hs.
Qed.

Lemma listing_sorted n : sorted_node n -> forall name, StronglySorted path_lt (map fst (listing name n)).
Proof.
  induction n as [c| | |l IH] using node_ind'; intros Hs name.
  - cbn. unfold leaf_listing. destruct c as [c|]; [|constructor]. destruct (has_suffix name ".json"); [|constructor].
    destruct (dec c) as [o bad]. destruct bad; repeat constructor.
  - constructor.
  - constructor.
  - cbn [listing]. inversion Hs as [| | |l' Hl Hf]; subst. clear Hs.
    induction l as [|[k c] l IHl]; [constructor|].
    inversion IH as [|? ? Hc Hcl]; subst. inversion Hl as [|? ? Hl' Hk]; subst. inversion Hf as [|? ? Hfc Hfl]; subst.
    cbn [flat_map]. rewrite map_app. apply StronglySorted_app. split; [|split].
    + rewrite map_map. cbn [fst snd] in *. specialize (Hc Hfc k). clear - Hc. revert Hc. generalize (listing k c). intros r0 Hc. induction r0 as [|[p o] r IHr]; [constructor|].
      cbn [map fst] in *. inversion Hc as [|? ? H1 H2]; subst. constructor; [now apply IHr|].
      rewrite Forall_map in *. eapply Forall_impl; [|exact H2]. intros a Ha. now apply pl_tail.
    + now apply IHl.
    + intros a b Ha Hb. rewrite map_map in Ha. apply in_map_iff in Ha. destruct Ha as (x & <- & _). cbn [fst].
      apply in_map_iff in Hb. destruct Hb as ([q o] & <- & Hb). cbn [fst]. apply in_flat_map in Hb. destruct Hb as ([k' c'] & Hin & Hb).
      apply in_map_iff in Hb. destruct Hb as (y & E & _). injection E as <- <-. apply pl_head.
      rewrite Forall_forall in Hk. exact (Hk _ Hin).
Qed.
End Dec.

Lemma path_lt_irrefl p : ~ path_lt p p.
Proof. induction p as [|x p IH]; intros H; inversion H; subst; [rewrite str_ltb_irrefl in *; discriminate|auto]. Qed.
Lemma sorted_nodup l : StronglySorted path_lt l -> NoDup l.
Proof.
  induction 1 as [|p l Hs IH Hp]; constructor; [|exact IH]. intros Hin. rewrite Forall_forall in Hp. exact (path_lt_irrefl _ (Hp _ Hin)).
Qed.

Lemma dir_load_ok dec parse_uri fs url wd names u : (exists r, url = "file:" +s+ r) -> parse_uri url = Some u ->
  let p := path_join [trim_prefix (u_path u) "/"; wd] in
  sorted_node (fs p) -> ~ vanished (fs p) ->
  exists l, dir_load dec parse_uri fs url wd names = inr (load_all names (map snd l))
    /\ (forall q o, In (q, o) l <-> advisory_at dec (path_base p) (fs p) q o)
    /\ NoDup (map fst l) /\ StronglySorted path_lt (map fst l).
Proof.
  intros Hurl Hu p Hs Hv. exists (listing dec (path_base p) (fs p)).
  assert (K : StronglySorted path_lt (map fst (listing dec (path_base p) (fs p)))) by now apply listing_sorted.
  split; [|split; [apply listing_at|split; [now apply sorted_nodup|exact K]]].
  unfold dir_load. apply has_prefix_iff in Hurl. rewrite Hurl, Hu. cbn [negb]. fold p.
  rewrite visits_listing; [reflexivity|]. intros q Hq. apply Hv. now exists q.
Qed.
Lemma walk_dec dec names n : forall name db, dir_visits dec names db (walk name n) = None -> exists p, at_path n p NGone.
Proof.
  induction n as [c| | |l IH] using node_ind'; intros name db H.
  - exfalso. cbn in H. unfold dir_visit in H. cbn in H. destruct (negb (has_suffix name ".json")); [discriminate|].
    destruct c as [c|]; [destruct (dec c)|]; discriminate.
  - exists []. constructor.
  - discriminate.
  - cbn [walk dir_visits] in H. assert (E : dir_visit dec names db (mkCall name (IDir true)) = Some db).
    { unfold dir_visit. cbn. destruct (has_suffix name ".json"); reflexivity. }
    rewrite E in H. clear E. assert (K : exists k c, In (k, c) l /\ exists p, at_path c p NGone).
    { revert db H. induction l as [|[k c] l IHl]; intros db H; [discriminate|]. inversion IH as [|? ? Hn Hl]; subst. cbn [flat_map] in H.
      rewrite dir_visits_app in H. destruct (dir_visits dec names db (walk k c)) as [db'|] eqn:E.
      - destruct (IHl Hl db' H) as (k' & c' & Hin & Hp). exists k', c'. split; [now right|exact Hp].
      - exists k, c. split; [now left|]. exact (Hn _ _ E). }
    destruct K as (k & c & Hin & p & Hp). exists (k :: p). now apply ap_below with (c := c).
Qed.
Lemma dir_load_err dec parse_uri fs url wd names :
  (exists e, dir_load dec parse_uri fs url wd names = inl e) <->
  ((forall r, url <> "file:" +s+ r) \/ parse_uri url = None
   \/ exists u, parse_uri url = Some u /\ vanished (fs (path_join [trim_prefix (u_path u) "/"; wd]))).
Proof.
  unfold dir_load. destruct (has_prefix url "file:") eqn:Ep; cbn [negb].
  2:{ split; [intros _; left; now apply has_prefix_false|eauto]. }
  destruct (parse_uri url) as [u|] eqn:Eu; [|split; [auto|eauto]].
  destruct (dir_visits dec names empty_db _) as [db|] eqn:Ev.
  - split; [intros [e H]; discriminate|]. intros [H|[H|(u' & E & Hv)]].
    + apply has_prefix_iff in Ep. destruct Ep as [r Hr]. now elim (H r).
    + discriminate.
    + injection E as <-. rewrite (visits_gone dec names _ Hv) in Ev. discriminate.
  - split; [|eauto]. intros _. right. right. exists u. split; [reflexivity|]. exact (walk_dec _ _ _ _ _ Ev).
Qed.
Lemma dir_error_kind dec parse_uri fs url wd names e : dir_load dec parse_uri fs url wd names = inl e ->
  (e = DProtocol <-> forall r, url <> "file:" +s+ r) /\ (e = DUrl -> parse_uri url = None).
Proof.
  unfold dir_load. destruct (has_prefix url "file:") eqn:Ep; cbn [negb].
  - assert (N : ~ forall r, url <> "file:" +s+ r).
    { apply has_prefix_iff in Ep. destruct Ep as [r Hr]. intros H. now elim (H r). }
    destruct (parse_uri url) as [u|] eqn:Eu.
    + destruct (dir_visits _ _ _ _); intros H; [discriminate|]. injection H as <-. split; [split; [discriminate|intros; contradiction]|discriminate].
    + intros H. injection H as <-. split; [split; [discriminate|intros; contradiction]|auto].
  - intros H. injection H as <-. split; [split; [intros _; now apply has_prefix_false|reflexivity]|discriminate].
Qed.
(** the directory read is relative to the working directory of the process *)
Lemma dir_relative l wd : Forall elem l -> Forall elem wd -> l <> [] ->
  path_join [trim_prefix (abs_path l) "/"; join "/" wd] = join "/" (l ++ wd).
Proof.
  intros Hl Hw N. unfold abs_path. rewrite trim_prefix_app. unfold path_join. cbn [drop_empty].
  assert (E1 : join "/" l <> "").
  { destruct l as [|a l]; [contradiction|]. inversion Hl as [|? ? (Ha & _) _]; subst. destruct a; [contradiction|]. destruct l; discriminate. }
  apply seqb_neq in E1. rewrite E1. destruct wd as [|w wd].
  - cbn [join]. change ("/" +s+ "") with "/". rewrite app_nil_r.
    unfold clean. assert (R : rooted (join "/" l +s+ "/") = false).
    { pose proof (elem_head_not_rooted l Hl) as H. unfold rooted in *. rewrite has_prefix_false in *. intros r E.
      destruct (join "/" l) as [|c s]; [discriminate|]. injection E as -> _. now apply (H s). }
    rewrite R. unfold clean_elems. rewrite R.
    assert (Es : split_char "/" (join "/" l +s+ "/") = l ++ [""]).
    { rewrite <- (split_char_join "/" (l ++ [""])).
      - f_equal. rewrite join_app by (discriminate || assumption). reflexivity.
      - destruct l; discriminate.
      - apply Forall_app. split; [now apply elem_pieces|repeat constructor]. }
    rewrite Es, fold_left_app. rewrite (clean_steps false l []) by assumption. cbn [fold_left clean_step seqb String.eqb orb]. rewrite app_nil_r, rev_involutive, E1. reflexivity.
  - change (join "/" [join "/" l; join "/" (w :: wd)]) with (join "/" l +s+ "/" +s+ join "/" (w :: wd)).
    rewrite <- (join_app "/" l (w :: wd)) by (assumption || discriminate).
    apply clean_rel; [now apply Forall_app|]. destruct l; discriminate.
Qed.
