From Verif Require Import GoStr GoStrFacts GoSort GoSortFacts Types Osv OsvSpec MemDBSpec OsvProofs MemDBProofs Json JsonFacts JsonRound JsonDec Path PathFacts ErrGroup ErrGroupProofs MemDB Api ApiSpec.
Local Open Scope Z_scope.

(** ** batching *)
Lemma wrap64_small z : - 2 ^ 63 <= z < 2 ^ 63 -> wrap64 z = z.
Proof. intros H. unfold wrap64. rewrite Z.mod_small; [ring|]. change (2 ^ 64) with (2 ^ 63 + 2 ^ 63). lia. Qed.

Lemma skipn_add {A} a b (l : list A) : skipn (a + b) l = skipn b (skipn a l).
Proof. revert l. induction a as [|a IH]; intros l; [reflexivity|]. destruct l; cbn; [now rewrite skipn_nil|apply IH]. Qed.

Lemma batch_loop_spec size : 1 <= size < 2 ^ 63 -> forall f pkgs k,
  zlen pkgs <= 2 ^ 62 -> (List.length (skipn k pkgs) <= f)%nat -> (k <= List.length pkgs)%nat ->
  (k = 0%nat \/ size <= Z.of_nat k) ->
  exists bs, batch_loop f pkgs size (Z.of_nat k) = Ok bs /\ batches_of size (skipn k pkgs) bs.
Proof.
  intros Hs. induction f as [|f IH]; intros pkgs k Hl Hf Hk Hk2.
  - destruct (skipn k pkgs) eqn:E; [|cbn in Hf; lia].
    assert (k = List.length pkgs) as Hkl. { pose proof (skipn_length k pkgs) as L. rewrite E in L. cbn in L. lia. }
    exists []. unfold batch_loop, zlen. replace (Z.of_nat k <? Z.of_nat (List.length pkgs)) with false by (symmetry; apply Z.ltb_ge; lia).
    split; [reflexivity|]. split; [reflexivity|]. split; [intros b []|]. intros pre b post Hq. destruct pre; discriminate.
  - cbn [batch_loop]. destruct (Z.ltb_spec (Z.of_nat k) (zlen pkgs)) as [Hlt|Hge].
    2:{ unfold zlen in Hge. assert (k = List.length pkgs) by lia. subst k. rewrite skipn_all. exists []. split; [reflexivity|].
        split; [reflexivity|]. split; [intros b []|]. intros pre b post Hq. destruct pre; discriminate. }
    unfold zlen in *. set (n := List.length pkgs) in *.
    assert (W : wrap64 (Z.of_nat k + size) = Z.of_nat k + size).
    { apply wrap64_small. destruct Hk2 as [->|Hk2]; [lia|]. change (2 ^ 63) with (2 ^ 62 + 2 ^ 62). lia. }
    rewrite W. unfold slice.
    replace ((0 <=? Z.of_nat k) && (Z.of_nat k <=? Z.min (Z.of_nat k + size) (Z.of_nat n))
             && (Z.min (Z.of_nat k + size) (Z.of_nat n) <=? zlen pkgs)) with true
      by (symmetry; unfold zlen; fold n; rewrite !andb_true_iff, !Z.leb_le; lia).
    set (m := Z.to_nat (Z.min (Z.of_nat k + size) (Z.of_nat n) - Z.of_nat k)).
    rewrite Nat2Z.id. cbn [rbind].
    destruct (Z_lt_le_dec (Z.of_nat k + size) (Z.of_nat n)) as [Hmore|Hlast].
    + assert (Em : Z.of_nat m = size) by (unfold m; lia).
      replace (Z.of_nat k + size) with (Z.of_nat (k + m)) by lia.
      assert (Hsk : skipn (k + m) pkgs = skipn m (skipn k pkgs)) by apply skipn_add.
      destruct (IH pkgs (k + m)%nat) as (bs & E & B1 & B2 & B3); auto; try lia.
      { rewrite skipn_length in *. fold n in Hf |- *. lia. }
      rewrite E. cbn [rbind]. eexists. split; [reflexivity|].
      assert (Lb : List.length (firstn m (skipn k pkgs)) = m).
      { apply firstn_length_le. rewrite skipn_length. fold n. lia. }
      split; [|split].
      * cbn [List.concat]. rewrite B1, Hsk. apply firstn_skipn.
      * intros b [<-|Hb]; [|auto]. split; [|unfold zlen; lia]. intros C. rewrite C in Lb. cbn in Lb. lia.
      * intros pre b post Hpre Hpost. destruct pre as [|x pre]; cbn in Hpre; injection Hpre as <- Hpre; [unfold zlen; lia|].
        now apply (B3 pre b post).
    + assert (E : batch_loop f pkgs size (Z.of_nat k + size) = Ok []).
      { destruct f; cbn [batch_loop]; unfold zlen; fold n;
          replace (Z.of_nat k + size <? Z.of_nat n) with false by (symmetry; apply Z.ltb_ge; lia); reflexivity. }
      rewrite E. cbn [rbind]. eexists. split; [reflexivity|].
      assert (Fm : firstn m (skipn k pkgs) = skipn k pkgs).
      { apply firstn_all2. rewrite skipn_length. fold n. lia. }
      rewrite Fm. split; [|split].
      * cbn. apply app_nil_r.
      * intros b [<-|[]]. split; [|unfold zlen; rewrite skipn_length; fold n; lia].
        intros C. pose proof (skipn_length k pkgs) as L. rewrite C in L. cbn in L. fold n in L. lia.
      * intros pre b post Hpre Hpost. destruct pre as [|x pre]; cbn in Hpre; injection Hpre as _ Hpre.
        -- subst post. contradiction.
        -- destruct pre; discriminate.
Qed.

Lemma batch_pkgs_spec pkgs size : 1 <= size < 2 ^ 63 -> zlen pkgs <= 2 ^ 62 ->
  exists bs, batch_pkgs pkgs size = Ok bs /\ batches_of size pkgs bs.
Proof.
  intros Hs Hl. unfold batch_pkgs. replace (size <? 1) with false by (symmetry; apply Z.ltb_ge; lia).
  destruct (batch_loop_spec size Hs (List.length pkgs) pkgs 0 Hl) as (bs & E & B); cbn [skipn]; auto; lia || (exists bs; now split).
Qed.

Lemma firstn_eq_len {A} (a b c d : list A) : a ++ b = c ++ d -> List.length a = List.length c -> a = c /\ b = d.
Proof.
  revert c. induction a as [|x a IH]; intros [|y c] H L; cbn in *; try discriminate; auto.
  injection H as -> H. destruct (IH c H) as [-> ->]; auto.
Qed.
Lemma batches_fun size pkgs bs bs' : batches_of size pkgs bs -> batches_of size pkgs bs' -> bs = bs'.
Proof.
  revert pkgs bs'. induction bs as [|b bs IH]; intros pkgs bs' (C1 & N1 & L1) (C2 & N2 & L2).
  - destruct bs' as [|b' bs']; [reflexivity|]. exfalso. subst pkgs. destruct (N2 b' (or_introl eq_refl)) as [H _].
    cbn in C2. destruct b'; [contradiction|discriminate].
  - destruct bs' as [|b' bs'].
    { exfalso. subst pkgs. destruct (N1 b (or_introl eq_refl)) as [H _]. cbn in C2. destruct b; [contradiction|discriminate]. }
    assert (E : b = b' /\ List.concat bs = List.concat bs').
    { rewrite <- C2 in C1. cbn in C1.
      pose proof (N1 b (or_introl eq_refl)) as [_ Lb]. pose proof (N2 b' (or_introl eq_refl)) as [_ Lb'].
      pose proof (L1 [] b bs eq_refl) as Hb. pose proof (L2 [] b' bs' eq_refl) as Hb'.
      destruct bs as [|b2 bs], bs' as [|b2' bs'].
      - cbn in *. rewrite !app_nil_r in C1. auto.
      - exfalso. specialize (Hb' ltac:(discriminate)). cbn [List.concat] in C1. rewrite app_nil_r in C1.
        destruct (N2 b2') as [H _]; [right; now left|]. apply (f_equal (@List.length _)) in C1. rewrite !app_length in C1.
        unfold zlen in *. destruct b2'; [contradiction|cbn in C1]. lia.
      - exfalso. specialize (Hb ltac:(discriminate)). cbn [List.concat] in C1. rewrite app_nil_r in C1.
        destruct (N1 b2) as [H _]; [right; now left|]. apply (f_equal (@List.length _)) in C1. rewrite !app_length in C1.
        unfold zlen in *. destruct b2; [contradiction|cbn in C1]. lia.
      - apply firstn_eq_len; [exact C1|]. specialize (Hb ltac:(discriminate)). specialize (Hb' ltac:(discriminate)). unfold zlen in *. lia. }
    destruct E as [-> E]. f_equal. apply (IH (List.concat bs) bs').
    + split; [reflexivity|]. split; [intros x Hx; apply N1; now right|]. intros pre x post H. apply (L1 (b' :: pre)). cbn. now rewrite H.
    + split; [now symmetry|]. split; [intros x Hx; apply N2; now right|]. intros pre x post H. apply (L2 (b' :: pre)). cbn. now rewrite H.
Qed.

(** ** payloads *)
Lemma build_payload_spec p : query_for p (query_json (build_payload p)).
Proof.
  unfold build_payload.
  destruct (seqb_spec (p_name p) "") as [En|En]; cbn [negb andb].
  2: destruct (seqb_spec (p_eco p) "") as [Ee|Ee]; cbn [negb andb].
  3: destruct (seqb_spec (p_version p) "") as [Ev|Ev]; cbn [negb andb].
  4:{ unfold query_json. cbn [q_commit q_version q_name q_eco].
      destruct (seqb_spec (p_version p) ""); [contradiction|]. apply by_name. now repeat split. }
  all: destruct (seqb_spec (p_commit p) "") as [Ec|Ec]; cbn [negb]; unfold query_json; cbn [q_commit q_version q_name q_eco];
    [apply by_nothing; [intros (? & ? & ?); contradiction|assumption]|].
  all: destruct (seqb_spec (p_commit p) ""); [contradiction|]; apply by_commit; [intros (? & ? & ?); contradiction|assumption].
Qed.
Lemma query_fun p a b : query_for p a -> query_for p b -> a = b.
Proof. intros [H|H1 H2|H1 H2] [K|K1 K2|K1 K2]; try reflexivity; contradiction. Qed.

Lemma query_good p : utf8_pkg p -> good (query_json (build_payload p)) = true.
Proof.
  intros (U1 & U2 & U3 & U4). assert (E : seqb (to_valid "") "" = true) by reflexivity.
  destruct (build_payload_spec p) as [H|H1 H2|H1 H2]; cbn [good forallb fst snd andb empty_pkg];
   rewrite ?U1, ?U2, ?U3, ?U4, ?seqb_refl; reflexivity.
Qed.
Lemma payload_spec pkgs : Forall utf8_pkg pkgs ->
  exists qs, parse_text (payload pkgs) = Some (JObj [("queries", JArr qs)]) /\ Forall2 query_for pkgs qs.
Proof.
  intros H. exists (map (fun p => query_json (build_payload p)) pkgs). split.
  - apply text_print. cbn [good forallb fst snd andb]. rewrite andb_true_r.
    change (seqb (to_valid "queries") "queries") with true. cbn [andb].
    apply forallb_forall. intros j Hj. apply in_map_iff in Hj. destruct Hj as (p & <- & Hp).
    apply query_good. now apply (proj1 (Forall_forall _ _) H).
  - clear H. induction pkgs as [|p pkgs IH]; cbn; constructor; auto. apply build_payload_spec.
Qed.

(** ** answers *)
Lemma batch_reply_ok b h idss : batch_reply b h = inr idss <-> good_answer b h idss.
Proof.
  unfold batch_reply, good_answer. split.
  - destruct h as [| |n body]; try discriminate.
    destruct (Z.eqb_spec n 200) as [->|]; [|discriminate]. cbn [negb]. destruct body as [body|]; [|discriminate].
    destruct (dec_batch body) as [v|] eqn:E; [|discriminate].
    destruct (Nat.eqb_spec (List.length b) (List.length v)); [|discriminate]. cbn [negb]. intros H. injection H as <-. eauto.
  - intros (body & -> & E & L). cbn. rewrite E, L, Nat.eqb_refl. reflexivity.
Qed.
Lemma batch_reply_err b h e : batch_reply b h = inl e <-> bad_answer b h e.
Proof.
  unfold batch_reply. split.
  - destruct h as [| |n body]; try (intros H; injection H as <-; constructor).
    destruct (Z.eqb_spec n 200) as [->|]; cbn [negb]; [|intros H; injection H as <-; now constructor].
    destruct body as [body|]; [|intros H; injection H as <-; constructor].
    destruct (dec_batch body) as [v|] eqn:E; [|intros H; injection H as <-; now constructor].
    destruct (Nat.eqb_spec (List.length b) (List.length v)); [discriminate|]. cbn [negb]. intros H. injection H as <-. apply bad_count; auto.
  - intros [| |n body Hn| |body E|body idss E L]; try reflexivity.
    + destruct (Z.eqb_spec n 200); [contradiction|reflexivity].
    + cbn. now rewrite E.
    + cbn. rewrite E. destruct (Nat.eqb_spec (List.length b) (List.length idss)); [congruence|reflexivity].
Qed.

Lemma dec_all_map {A B} (d : json -> option A) (f : B -> json) (g : B -> A) l :
  (forall x, In x l -> d (f x) = Some (g x)) -> dec_all d (map f l) = Some (map g l).
Proof. induction l as [|x l IH]; cbn; intros H; [reflexivity|]. rewrite H by now left. rewrite IH; auto. Qed.

Lemma dec_fields_skip {S} (set : string -> json -> S -> option S) l s :
  (forall k v s', In (k, v) l -> set (fold_key k) v s' = Some s') -> dec_fields set l s = Some s.
Proof.
  unfold dec_fields. revert s. induction l as [|[k v] l IH]; intros s H; cbn; [reflexivity|].
  rewrite H by now left. apply IH. intros k' v' s' Hin. apply H. now right.
Qed.
Lemma dec_result_shape j ids : result_json j ids -> dec_result j = Some ids.
Proof.
  intros [|ids' extras L Hex]; [reflexivity|].
  unfold dec_result, dec_struct, dec_fields. cbn [fold_left fst snd].
  change (seqb (fold_key "vulns") "vulns") with true. cbn iota. unfold dec_list.
  rewrite dec_all_map with (g := fst).
  - f_equal. clear Hex. revert extras L. induction ids' as [|x ids' IH]; intros [|y extras] L; cbn in *; try discriminate; auto. f_equal. auto.
  - intros [id extra] Hin. cbn [fst snd]. unfold dec_object_with_id, vuln_json, dec_struct, dec_fields.
    cbn [fold_left fst snd]. change (seqb (fold_key "id") "id") with true. cbn iota. cbn [dec_string].
    pose proof (dec_fields_skip (fun k v s => if seqb k "id" then dec_string v s else Some s) extra id) as K.
    unfold dec_fields in K. apply K.
    intros k v s' Hk. apply in_combine_r in Hin. rewrite Forall_forall in Hex. specialize (Hex _ Hin). rewrite Forall_forall in Hex.
    specialize (Hex _ Hk). cbn [fst] in Hex. destruct (seqb_spec (fold_key k) "id"); [contradiction|reflexivity].
Qed.
Lemma dec_batch_shape js idss : good (batch_json js) = true -> (depth (batch_json js) <= 10000)%N ->
  Forall2 result_json js idss -> dec_batch (print (batch_json js)) = Some idss.
Proof.
  intros G D F. unfold dec_batch. rewrite parse_print by assumption. clear D.
  unfold batch_json, dec_struct, dec_fields. cbn [fold_left fst snd]. change (seqb (fold_key "results") "results") with true. cbn iota.
  unfold dec_list. clear G. induction F as [|j ids js idss H F IH]; cbn; [reflexivity|]. now rewrite (dec_result_shape _ _ H), IH.
Qed.

(** ** the whole check *)
Lemma find_or_default_spec vs def :
  (In (find_or_default vs def) vs /\ o_id (find_or_default vs def) = o_id def)
  \/ (find_or_default vs def = def /\ forall v, In v vs -> o_id v <> o_id def).
Proof.
  induction vs as [|v vs IH]; cbn; [right; split; [reflexivity|intros v []]|].
  destruct (seqb_spec (o_id v) (o_id def)) as [E|E]; [left; auto|].
  destruct IH as [[H1 H2]|[H1 H2]]; [left; auto|right]. split; [assumption|]. intros x [<-|Hx]; auto.
Qed.

Lemma nodup_ids ids : NoDup (map o_id (unique (map id_only ids)))
  /\ forall id, In id (map o_id (unique (map id_only ids))) <-> In id ids.
Proof.
  pose proof (dedup_props _ _ (unique_dedup (map id_only ids))) as (Hi & Hp & Hc).
  set (u := unique (map id_only ids)) in *.
  assert (R : forall a b, related (id_only a) (id_only b) <-> a = b).
  { intros a b. unfold related. cbn. split; [|auto]. intros [H|[[]|[[]|(x & [] & _)]]]; auto. }
  assert (Hu : forall v, In v u -> exists id, v = id_only id /\ In id ids).
  { intros v Hv. apply Hi in Hv. apply in_map_iff in Hv. destruct Hv as (id & <- & Hin). eauto. }
  split.
  - clear Hc Hi. induction Hp as [|v u Hv Hp IH]; cbn; constructor.
    + intros Hin. apply in_map_iff in Hin. destruct Hin as (w & Ew & Hw).
      rewrite Forall_forall in Hv. apply (Hv w Hw).
      destruct (Hu v (or_introl eq_refl)) as (a & -> & _). destruct (Hu w (or_intror Hw)) as (b & -> & _).
      cbn in Ew. subst b. now apply R.
    + apply IH. intros w Hw. apply Hu. now right.
  - intros id. split; intros H.
    + apply in_map_iff in H. destruct H as (v & <- & Hv). destruct (Hu v Hv) as (i & -> & Hin). exact Hin.
    + destruct (Hc (id_only id)) as (x & Hx & [->|Hr]).
      * apply in_map_iff. now exists id.
      * apply in_map_iff. now exists (id_only id).
      * destruct (Hu x Hx) as (a & -> & _). apply R in Hr. subst a. apply in_map_iff. now exists (id_only id).
Qed.

Section WithServer.
Variable S : Sorter.
Hypothesis HS : SorterOk S.
Variable dec_osv : string -> OSV * bool.
Variable post : string -> string -> http -> Prop.
Variable get : string -> http -> Prop.

Lemma fetch_received h : received dec_osv h (fst (fetch_reply dec_osv h)).
Proof.
  destruct h as [| |n body]; try (apply rec_bad; discriminate). unfold fetch_reply.
  destruct (Z.eqb_spec n 200) as [->|Hn]; cbn [negb].
  - destruct body as [b|]; [|apply rec_bad; discriminate]. pose proof (rec_ok dec_osv b) as R. destruct (dec_osv b); exact R.
  - apply rec_bad. congruence.
Qed.
Lemma received_fun h a b : received dec_osv h a -> received dec_osv h b -> a = b.
Proof.
  intros [body|h' H] K.
  - inversion K as [|h' H]; subst; [reflexivity|]. exfalso. exact (H body eq_refl).
  - inversion K as [body|h'']; subst; [|reflexivity]. exfalso. exact (H body eq_refl).
Qed.

Lemma Forall2_nth {A B} (R : A -> B -> Prop) la lb da :
  List.length la = List.length lb -> (forall i b, nth_error lb i = Some b -> R (nth i la da) b) -> Forall2 R la lb.
Proof.
  revert lb. induction la as [|a la IH]; intros [|b lb] L H; cbn in L; try discriminate; constructor.
  - exact (H 0%nat b eq_refl).
  - apply IH; [lia|]. intros i x Hx. exact (H (Datatypes.S i) x Hx).
Qed.
Lemma perm_seq_map {A} (l : list A) (d : A) sent : Permutation sent (seq 0 (List.length l)) ->
  Permutation (map (fun i => nth i l d) sent) l.
Proof.
  intros P. apply (Permutation_map (fun i => nth i l d)) in P. rewrite P.
  assert (E : map (fun i => nth i l d) (seq 0 (List.length l)) = l).
  { clear P. induction l as [|a l IH]; [reflexivity|]. cbn [List.length seq map nth]. f_equal.
    rewrite <- seq_shift, map_map. exact IH. }
  rewrite E. reflexivity.
Qed.

Lemma fetch_all_spec db ids osvs gets : fetch_all S dec_osv get db ids osvs gets ->
  exists docs, List.length docs = List.length ids
   /\ Permutation osvs docs
   /\ Forall2 (fun id d => exists h, get (osv_endpoint db id) h /\ received dec_osv h d) ids docs
   /\ Permutation gets (map (osv_endpoint db) ids).
Proof.
  intros (k & s & R & D & -> & ->).
  destruct (group_result _ _ _ _ _ R D) as (outs & L & F & Sl & _ & _ & P).
  set (docs := map (fun o : Empty_set + OSV => match o with inr v => v | inl e => match e with end end) outs).
  exists docs. split; [unfold docs; now rewrite map_length|]. split; [|split].
  - rewrite Sl, map_map. eapply Permutation_trans; [apply Permutation_sym, sorter_perm; exact HS|].
    unfold docs. apply Permutation_refl'. apply map_ext. intros [[]|v]; reflexivity.
  - apply Forall2_nth with (da := ""); [unfold docs; now rewrite map_length|].
    intros i b Hb. unfold docs in Hb. rewrite nth_error_map in Hb.
    destruct (nth_error outs i) as [o|] eqn:Eo; [|discriminate]. cbn in Hb. injection Hb as <-.
    destruct (F i o Eo) as (h & Hg & ->). exists h. split; [assumption|]. apply fetch_received.
  - rewrite <- map_map with (f := fun i => nth i ids "") (g := osv_endpoint db).
    apply Permutation_map, perm_seq_map. exact P.
Qed.

Lemma gather_map (answers : list (list (list string))) :
  gather (map Some answers) = map (map id_only) (List.concat answers).
Proof. unfold gather. induction answers as [|a l IH]; cbn; [reflexivity|]. now rewrite IH, map_app. Qed.

Lemma concat_lengths (batches : list (list Pkg)) (answers : list (list (list string))) :
  Forall2 (fun b idss => List.length idss = List.length b) batches answers ->
  List.length (List.concat answers) = List.length (List.concat batches).
Proof. induction 1; cbn; [reflexivity|]. rewrite !app_length. lia. Qed.

Lemma api_check_ok db pkgs result posts gets : db_ok db pkgs ->
  api_check S dec_osv post get db pkgs (Ok (inr result)) posts gets ->
  checked dec_osv post get db pkgs result posts gets.
Proof.
  intros [Hb Hl] H. inversion H as [| |batches k s osvs gets' E R D Er vulns ids FA Eres]; subst.
  destruct (batch_pkgs_spec pkgs _ Hb Hl) as (bs & E' & B). rewrite E in E'. injection E' as <-.
  destruct (group_result _ _ _ _ _ R D) as (outs & L & F & Sl & Ne & _ & P).
  pose proof (proj1 Ne Er) as Hok.
  set (answers := map (fun o : api_err + list (list string) => match o with inr v => v | inl _ => [] end) outs).
  assert (Sl' : g_slots s = map Some answers).
  { rewrite Sl. unfold answers. rewrite map_map. apply map_ext_in. intros o Ho. specialize (Hok o Ho). destruct o; [discriminate|reflexivity]. }
  assert (FF : Forall2 (fun b idss => exists h, post (bulk_endpoint db) (payload b) h /\ good_answer b h idss) batches answers).
  { apply Forall2_nth with (da := []); [unfold answers; now rewrite map_length|].
    intros i a Ha. unfold answers in Ha. rewrite nth_error_map in Ha.
    destruct (nth_error outs i) as [o|] eqn:Eo; [|discriminate]. cbn in Ha. injection Ha as <-.
    destruct (F i o Eo) as (h & Hp & Er'). exists h. split; [assumption|].
    apply batch_reply_ok. rewrite <- Er'. specialize (Hok o (nth_error_In _ _ Eo)). destruct o; [discriminate|reflexivity]. }
  set (listed := List.concat (List.concat answers)).
  assert (Ev : gather (g_slots s) = map (map id_only) (List.concat answers)) by (rewrite Sl'; apply gather_map).
  assert (Eids : ids = map o_id (unique (map id_only listed))).
  { unfold ids, vulns, listed. rewrite Ev. rewrite <- concat_map. reflexivity. }
  rewrite Eids in FA. unfold vulns. rewrite Ev. clear ids vulns Eids H Ev.
  destruct (fetch_all_spec _ _ _ _ FA) as (docs & Ld & Pd & Fd & Pg).
  destruct (nodup_ids listed) as [ND IN].
  set (uids := map o_id (unique (map id_only listed))) in *.
  assert (Lf : map fst (combine uids docs) = uids).
  { clear - Ld. revert docs Ld. induction uids as [|u us IH]; intros [|d ds] L; cbn in *; try discriminate; auto. f_equal. auto. }
  assert (Sf : map snd (combine uids docs) = docs).
  { clear - Ld. revert docs Ld. induction uids as [|u us IH]; intros [|d ds] L; cbn in *; try discriminate; auto. f_equal. auto. }
  exists batches, answers, (combine uids docs).
  split; [assumption|]. split.
  { rewrite <- map_map with (f := fun i => nth i batches []) (g := payload). apply Permutation_map, perm_seq_map. exact P. }
  split; [assumption|]. rewrite Lf. split; [assumption|]. split.
  { intros id. rewrite IN. unfold listed. rewrite in_concat. split; intros (x & H1 & H2); exists x; now split. }
  split.
  { rewrite <- map_map with (f := fst) (g := osv_endpoint db). rewrite Lf. exact Pg. }
  split.
  { intros id d Hin. clear - Fd Hin. induction Fd as [|u x us xs Hx Fd IH]; cbn in Hin; [contradiction|].
    destruct Hin as [Hin|Hin]; [injection Hin as <- <-; exact Hx|auto]. }
  split.
  { destruct B as [B _]. rewrite <- B. apply concat_lengths. clear - FF. induction FF as [|b a bs as_ H FF IH]; constructor; auto.
    destruct H as (h & _ & body & _ & _ & Lh). exact Lh. }
  assert (Hd : forall v, In v osvs <-> exists q, In (q, v) (combine uids docs)).
  { intros v. split.
    - intros Hv. apply (Permutation_in _ Pd) in Hv. rewrite <- Sf in Hv. apply in_map_iff in Hv. destruct Hv as ([q w] & <- & Hin). eauto.
    - intros [q Hin]. apply (Permutation_in _ (Permutation_sym Pd)). apply in_combine_r in Hin. exact Hin. }
  clearbody uids. clear - Hd. clearbody answers.
  induction (List.concat answers) as [|ids l IH]; cbn [map]; [constructor|]. constructor; [|exact IH]. clear IH l.
  induction ids as [|id ids IH]; cbn [map]; [constructor|]. constructor; [|exact IH]. clear IH.
  destruct (find_or_default_spec osvs (id_only id)) as [[H1 H2]|[H1 H2]].
  - split; [exact H2|]. left. now apply Hd.
  - rewrite H1. split; [reflexivity|]. right. split; [reflexivity|]. intros q d Hin. apply (H2 d). apply Hd. eauto.
Qed.

Lemma api_check_err db pkgs e posts gets : db_ok db pkgs ->
  api_check S dec_osv post get db pkgs (Ok (inl e)) posts gets ->
  gets = [] /\ exists batches b h, batches_of (api_batch db) pkgs batches /\ In b batches
    /\ post (bulk_endpoint db) (payload b) h /\ bad_answer b h e.
Proof.
  intros [Hb Hl] H. inversion H as [|batches k s e' E R D Er|]; subst. split; [reflexivity|].
  destruct (batch_pkgs_spec pkgs _ Hb Hl) as (bs & E' & B). rewrite E in E'. injection E' as <-.
  destruct (group_result _ _ _ _ _ R D) as (outs & L & F & _ & _ & Ne & _).
  apply Ne in Er. apply In_nth_error in Er. destruct Er as [i Hi].
  assert (Hlt : (i < List.length batches)%nat) by (rewrite <- L; apply nth_error_Some; congruence).
  destruct (F i _ Hi) as (h & Hp & Hr). exists batches, (nth i batches []), h.
  split; [assumption|]. split; [now apply nth_In|]. split; [assumption|]. now apply batch_reply_err.
Qed.

Lemma api_check_no_panic db pkgs posts gets : db_ok db pkgs -> ~ api_check S dec_osv post get db pkgs Panic posts gets.
Proof.
  intros [Hb Hl] H. inversion H; subst. destruct (batch_pkgs_spec pkgs _ Hb Hl) as (bs & E' & _). congruence.
Qed.

(** a failing batch is never hidden *)
Lemma api_check_complete db pkgs r posts gets : db_ok db pkgs ->
  api_check S dec_osv post get db pkgs (Ok r) posts gets ->
  (exists batches b, batches_of (api_batch db) pkgs batches /\ In b batches
     /\ forall h, post (bulk_endpoint db) (payload b) h -> exists e, bad_answer b h e) ->
  exists e, r = inl e.
Proof.
  intros Hok H (batches & b & B & Hin & Hbad). destruct r as [e|res]; [eauto|]. exfalso.
  destruct (api_check_ok _ _ _ _ _ Hok H) as (bs & answers & fetched & B' & _ & F & _).
  rewrite (batches_fun _ _ _ _ B' B) in F. clear - F Hin Hbad.
  induction F as [|b' a bs as_ (h & Hp & Hg) F IH]; [contradiction|].
  destruct Hin as [->|Hin]; [|auto]. destruct (Hbad h Hp) as [e He].
  apply batch_reply_err in He. apply batch_reply_ok in Hg. congruence.
Qed.
End WithServer.

(** a complete execution exists against every server that answers *)
Lemma group_exists {A E} n limit (serve : nat -> E + A -> Prop) : (0 < limit)%nat -> (forall i, (i < n)%nat -> exists r, serve i r) ->
  exists k s, gsteps n limit serve k (g_init n) s /\ g_done n s.
Proof.
  intros Hl Hs.
  assert (K : forall m k s, gsteps n limit serve k (g_init n) s -> (measure n s <= m)%nat ->
            exists k' s', gsteps n limit serve k' (g_init n) s' /\ g_done n s').
  { induction m as [|m IH]; intros k s R M.
    - destruct (group_progress n limit serve k s Hl Hs R) as [D|[s' St]]; [eauto|].
      apply step_measure in St. lia.
    - destruct (group_progress n limit serve k s Hl Hs R) as [D|[s' St]]; [eauto|].
      pose proof (step_measure _ _ _ _ _ St). apply (IH (Datatypes.S k) s'); [|lia].
      econstructor; eassumption. }
  exact (K _ 0%nat (g_init n) (gs_nil _ _ _ _) (le_n _)).
Qed.
Lemma api_check_exists S dec_osv (post : string -> string -> http -> Prop) (get : string -> http -> Prop) db pkgs :
  db_ok db pkgs -> (forall u b, exists h, post u b h) -> (forall u, exists h, get u h) ->
  exists r posts gets, api_check S dec_osv post get db pkgs (Ok r) posts gets.
Proof.
  intros [Hb Hl] Hp Hg. destruct (batch_pkgs_spec pkgs _ Hb Hl) as (bs & E & _).
  destruct (group_exists (List.length bs) 100 (serve_batch post db bs)) as (k & s & R & D); [lia| |].
  { intros i _. destruct (Hp (bulk_endpoint db) (payload (nth i bs []))) as [h Hh]. eexists. exists h. split; [exact Hh|reflexivity]. }
  destruct (g_err s) as [e|] eqn:Er.
  - eexists _, _, _. eapply check_fails; eassumption.
  - set (ids := map o_id (unique (List.concat (gather (g_slots s))))).
    destruct (group_exists (List.length ids) 200 (serve_fetch dec_osv get db ids)) as (k2 & s2 & R2 & D2); [lia| |].
    { intros i _. destruct (Hg (osv_endpoint db (nth i ids ""))) as [h Hh]. eexists. exists h. split; [exact Hh|reflexivity]. }
    eexists _, _, _. eapply check_works; [eassumption..|].
    exists k2, s2. split; [exact R2|]. split; [exact D2|]. split; reflexivity.
Qed.

(** against a server that always answers alike, all schedules agree *)
Lemma nth_error_ext' {A} (a b : list A) : List.length a = List.length b ->
  (forall i x y, nth_error a i = Some x -> nth_error b i = Some y -> x = y) -> a = b.
Proof.
  revert b. induction a as [|x a IH]; intros [|y b] L H; cbn in L; try discriminate; [reflexivity|].
  f_equal; [exact (H 0%nat x y eq_refl eq_refl)|]. apply IH; [lia|]. intros i u v Hu Hv. exact (H (Datatypes.S i) u v Hu Hv).
Qed.
Lemma group_det {A E} n limit (serve : nat -> E + A -> Prop) k s k' s' :
  (forall i r r', serve i r -> serve i r' -> r = r') ->
  gsteps n limit serve k (g_init n) s -> g_done n s -> gsteps n limit serve k' (g_init n) s' -> g_done n s' ->
  g_slots s = g_slots s' /\ (g_err s = None <-> g_err s' = None).
Proof.
  intros Hd R D R' D'.
  destruct (group_result _ _ _ _ _ R D) as (o & L & F & Sl & Ne & _).
  destruct (group_result _ _ _ _ _ R' D') as (o' & L' & F' & Sl' & Ne' & _).
  assert (Eo : o = o').
  { apply nth_error_ext'; [congruence|]. intros i x y Hx Hy. eapply Hd; eauto. }
  subst o'. split; [congruence|]. now rewrite Ne, Ne'.
Qed.
Lemma api_check_det S dec_osv (post : string -> string -> http -> Prop) (get : string -> http -> Prop) db pkgs r1 p1 g1 r2 p2 g2 :
  (forall u b h h', post u b h -> post u b h' -> h = h') -> (forall u h h', get u h -> get u h' -> h = h') ->
  api_check S dec_osv post get db pkgs r1 p1 g1 -> api_check S dec_osv post get db pkgs r2 p2 g2 ->
  (exists e e', r1 = Ok (inl e) /\ r2 = Ok (inl e')) \/ r1 = r2.
Proof.
  intros Dp Dg H1 H2.
  assert (DB : forall bs i r r', serve_batch post db bs i r -> serve_batch post db bs i r' -> r = r').
  { intros bs i r r' (h & P1 & ->) (h' & P2 & ->). now rewrite (Dp _ _ _ _ P1 P2). }
  assert (DF : forall ids i r r', serve_fetch dec_osv get db ids i r -> serve_fetch dec_osv get db ids i r' -> r = r').
  { intros ids i r r' (h & P1 & ->) (h' & P2 & ->). now rewrite (Dg _ _ _ P1 P2). }
  destruct H1 as [E1|b1 k1 s1 e1 E1 R1 D1 Er1|b1 k1 s1 o1 g1 E1 R1 D1 Er1 v1 i1 F1];
  destruct H2 as [E2|b2 k2 s2 e2 E2 R2 D2 Er2|b2 k2 s2 o2 g2 E2 R2 D2 Er2 v2 i2 F2]; try (right; reflexivity); try congruence.
  - left. eauto.
  - exfalso. rewrite E1 in E2. injection E2 as <-.
    destruct (group_det _ _ _ _ _ _ _ (DB _) R1 D1 R2 D2) as [_ N]. apply N in Er2. congruence.
  - exfalso. rewrite E1 in E2. injection E2 as <-.
    destruct (group_det _ _ _ _ _ _ _ (DB _) R1 D1 R2 D2) as [_ N]. apply N in Er1. congruence.
  - right. rewrite E1 in E2. injection E2 as <-.
    destruct (group_det _ _ _ _ _ _ _ (DB _) R1 D1 R2 D2) as [Sl _].
    assert (Ei : i1 = i2) by (unfold i1, i2, v1, v2; now rewrite Sl).
    assert (Ev : v1 = v2) by (unfold v1, v2; now rewrite Sl).
    destruct F1 as (k3 & s3 & R3 & D3 & -> & _). rewrite Ei in R3, D3.
    destruct F2 as (k4 & s4 & R4 & D4 & -> & _).
    destruct (group_det _ _ _ _ _ _ _ (DF _) R3 D3 R4 D4) as [Sl' _]. rewrite Ev, Sl'. reflexivity.
Qed.

Lemma group_halts {A E} n limit (serve : nat -> E + A -> Prop) k s :
  (0 < limit)%nat -> (forall i, (i < n)%nat -> exists r, serve i r) ->
  gsteps n limit serve k (g_init n) s ->
  (k <= 4 * n)%nat /\ ((forall s', ~ gstep n limit serve s s') -> g_done n s).
Proof.
  intros Hl Hs R. split; [pose proof (group_terminates _ _ _ _ _ R); lia|].
  intros N. destruct (group_progress _ _ _ _ _ Hl Hs R) as [D|[s' St]]; [exact D|]. elim (N _ St).
Qed.
Lemma group_outcome {A E} n limit (serve : nat -> E + A -> Prop) k s :
  gsteps n limit serve k (g_init n) s -> g_done n s ->
  exists outs, List.length outs = n
    /\ (forall i r, nth_error outs i = Some r -> serve i r)
    /\ g_slots s = map (fun r => match r with inr a => Some a | inl _ => None end) outs
    /\ (g_err s = None <-> forall e, ~ In (inl e) outs)
    /\ (forall e, g_err s = Some e -> In (inl e) outs)
    /\ Permutation (g_sent s) (seq 0 n).
Proof.
  intros R D. destruct (group_result _ _ _ _ _ R D) as (outs & L & F & Sl & Ne & Er & P).
  exists outs. split; [assumption|]. split; [assumption|]. split; [exact Sl|]. split; [|split; assumption].
  rewrite Ne. split.
  - intros H e Hin. specialize (H _ Hin). discriminate.
  - intros H [e|a] Hin; [elim (H e Hin)|reflexivity].
Qed.
Lemma new_api_db_iff parse_uri name ident url offline batch db :
  new_api_db parse_uri name ident url offline batch = inr db <->
  (offline = false /\ 1 <= batch /\ exists u, parse_uri url = Some u /\ db = mkAPI name ident u batch).
Proof.
  unfold new_api_db. destruct offline; [split; [discriminate|intros [H _]; discriminate]|].
  destruct (Z.ltb_spec batch 1); [split; [discriminate|intros (_ & H1 & _); lia]|].
  destruct (parse_uri url) as [u|]; [|split; [discriminate|intros (_ & _ & u & H1 & _); discriminate]].
  split.
  - intros H1. injection H1 as <-. eauto.
  - intros (_ & _ & u' & H1 & ->). injection H1 as <-. reflexivity.
Qed.
Lemma good_or_bad b h : (exists idss, good_answer b h idss) <-> ~ exists e, bad_answer b h e.
Proof.
  split.
  - intros [idss Hg] [e He]. apply batch_reply_ok in Hg. apply batch_reply_err in He. congruence.
  - intros N. destruct (batch_reply b h) as [e|idss] eqn:Eb.
    + elim N. exists e. now apply batch_reply_err.
    + exists idss. now apply batch_reply_ok.
Qed.
Lemma endpoints_spec name ident render batch base id : Forall elem base -> elem id ->
  bulk_endpoint (mkAPI name ident (mkURL (abs_path base) render) batch) = render (abs_path (base ++ ["querybatch"]))
  /\ osv_endpoint (mkAPI name ident (mkURL (abs_path base) render) batch) id = render (abs_path (base ++ ["vulns"; id])).
Proof.
  intros Hb Hi. unfold bulk_endpoint, osv_endpoint. cbn [api_url u_path u_render].
  split; f_equal; apply path_join_abs; auto; try discriminate.
  - constructor; [|constructor]. now repeat split.
  - constructor; [|constructor; [assumption|constructor]]. now repeat split.
Qed.

Lemma fetched_once S dec_osv post get db pkgs result posts gets : SorterOk S -> db_ok db pkgs ->
  api_check S dec_osv post get db pkgs (Ok (inr result)) posts gets ->
  exists ids, NoDup ids /\ Permutation gets (map (osv_endpoint db) ids)
    /\ (forall id, In id ids <-> exists vs v, In vs result /\ In v vs /\ o_id v = id).
Proof.
  intros HS K H. destruct (api_check_ok _ HS _ _ _ _ _ _ _ _ K H) as (bs & ans & fetched & _ & _ & _ & ND & IN & P & _ & _ & R).
  exists (map fst fetched). split; [assumption|]. split; [now rewrite map_map|].
  intros id. rewrite IN. clear - R. induction R as [|ids vs idss vss R1 R IH].
  - split; [intros (x & [] & _)|intros (x & v & [] & _)].
  - assert (E : In id ids <-> exists v, In v vs /\ o_id v = id).
    { clear - R1. induction R1 as [|i v ids vs [Hi _] R1 IH]; [split; [intros []|intros (v & [] & _)]|].
      split.
      - intros [->|Hin]; [exists v; split; [now left|assumption]|]. apply IH in Hin as (w & Hw & Ew). exists w. split; [now right|assumption].
      - intros (w & [->|Hw] & Ew); [left; congruence|]. right. apply IH. eauto. }
    split.
    + intros (x & [<-|Hx] & Hin).
      * apply E in Hin as (v & Hv & Ev). exists vs, v. split; [now left|auto].
      * destruct (proj1 IH) as (ws & v & Hws & Hv); [eauto|]. exists ws, v. split; [now right|assumption].
    + intros (ws & v & [<-|Hws] & Hv & Ev).
      * exists ids. split; [now left|]. apply E. eauto.
      * destruct (proj2 IH) as (x & Hx & Hin); [eauto|]. exists x. split; [now right|assumption].
Qed.
