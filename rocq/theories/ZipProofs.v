From Verif Require Import GoStr GoStrFacts Types Json JsonFacts JsonRound JsonDec Base64 Base64Facts Osv MemDB MemDBSpec ZipDB ZipSpec.
From Verif Require JsonSpec JsonGrammar.
Local Open Scope Z_scope.

Definition valid_cache (c : Cache) : Cache :=
  mkCache (to_valid (c_url c)) (to_valid (c_etag c)) (to_valid (c_date c)) (c_body c).

Lemma cache_round c : dec_cache (enc_cache (Some c)) = (Some (valid_cache c), false).
Proof.
  unfold dec_cache, enc_cache. rewrite parse_print_norm.
  - destruct c as [u e d [b|]]; cbn [cache_json norm map fst snd c_body c_url c_etag c_date fold_left].
    + unfold dec_cache_field. cbn [fst snd]. cbn [dec_string]. 
      change (to_valid "url") with "url". change (to_valid "etag") with "etag". change (to_valid "date") with "date". change (to_valid "body") with "body".
      change (seqb (fold_key "url") "url") with true. change (seqb (fold_key "etag") "url") with false. change (seqb (fold_key "etag") "etag") with true.
      change (seqb (fold_key "date") "url") with false. change (seqb (fold_key "date") "etag") with false. change (seqb (fold_key "date") "date") with true.
      change (seqb (fold_key "body") "url") with false. change (seqb (fold_key "body") "etag") with false. change (seqb (fold_key "body") "date") with false. change (seqb (fold_key "body") "body") with true.
      cbv iota beta. rewrite (to_valid_ascii (b64_enc b)) by apply b64_enc_ascii. rewrite b64_round. reflexivity.
    + reflexivity.
  - destruct c as [u e d [b|]]; reflexivity.
  - destruct c as [u e d [b|]]; vm_compute; discriminate.
Qed.
Lemma null_round : dec_cache (enc_cache None) = (None, false).
Proof. reflexivity. Qed.

Lemma prefix_cases p q s : s = p +s+ q -> exists n, p = str_take n s /\ (n <= String.length s)%nat.
Proof. intros ->. exists (String.length p). split; [now rewrite str_take_app|rewrite slen_app; lia]. Qed.
Lemma torn_cache c p q : enc_cache c = p +s+ q -> q <> "" -> fst (dec_cache p) = None.
Proof.
  intros E Q. unfold dec_cache. destruct c as [c|].
  - unfold enc_cache in E.
    assert (H : parse p = None).
    { destruct c as [u e d [b|]]; cbn [cache_json] in E; (eapply parse_prefix_obj; [|exact E|exact Q]); reflexivity. }
    now rewrite H.
  - change (enc_cache None) with "null" in E.
    assert (L : String.length p <> 4%nat).
    { intros L. apply (f_equal String.length) in E. rewrite slen_app, L in E. cbn in E. destruct q; [contradiction|cbn in E; lia]. }
    destruct (prefix_cases _ _ _ E) as (n & -> & Hn). cbn in Hn.
    destruct n as [|[|[|[|[|n]]]]]; try reflexivity; try (cbn in L; now elim L).
Qed.

(** fetching depends on the file only through the cache read from it *)
Definition cache_of (file : option string) : option Cache :=
  match file with Some content => fst (dec_cache content) | None => None end.
Lemma fetch_cache url file file' : cache_of file = cache_of file' ->
  forall offline answer, fetch_zip url offline file answer = fetch_zip url offline file' answer.
Proof. intros E offline answer. unfold fetch_zip. fold (cache_of file). fold (cache_of file'). now rewrite E. Qed.
Lemma uncached_none url file : cache_of file = None -> uncached url file.
Proof. intros E offline answer. apply fetch_cache. exact E. Qed.

Definition dl_cache (d : download) : Cache :=
  mkCache (to_valid (d_url d)) (to_valid (d_etag d)) (to_valid (d_date d)) (Some (d_body d)).
Lemma works_from_cache url file d : cache_of file = Some (dl_cache d) -> works_from url file d.
Proof.
  intros E. split.
  - intros answer. unfold fetch_zip. fold (cache_of file). rewrite E. reflexivity.
  - intros answer rq. unfold fetch_zip. fold (cache_of file). rewrite E.
    change (mkReq url (Some (c_etag (dl_cache d), c_date (dl_cache d)))) with rq. split.
    + intros N. destruct (answer rq) as [| |st e dt b]; [contradiction|reflexivity|].
      destruct (st =? 304); [reflexivity|]. destruct (negb (st =? 200)); [reflexivity|]. destruct b; reflexivity.
    + intros e dt b ->. reflexivity.
Qed.

Definition good_dl (url : string) (ds : list download) (c : option Cache) : Prop :=
  c = None \/ exists d, In d ds /\ d_url d = url /\ (d_etag d <> "" \/ d_date d <> "") /\ c = Some (dl_cache d).
Lemma good_dl_more url ds ds' c : good_dl url ds c -> good_dl url (ds ++ ds') c.
Proof. intros [H|(d & H & R)]; [now left|right]. exists d. split; [apply in_or_app; now left|exact R]. Qed.

Lemma write_good url ds old c offline answer contents file' :
  let f := fetch_zip url offline old answer in
  good_dl url ds (cache_of old) -> f_write f = Some contents -> written old contents file' ->
  c = cache_of file' -> good_dl url (ds ++ downloads_of (f_reqs f) answer) c.
Proof.
  intros f Hold Hw Hwr ->. destruct Hwr as [|p q E]; [now apply good_dl_more|].
  unfold f, fetch_zip in Hw |- *. fold (cache_of old) in Hw |- *.
  destruct offline.
  { destruct (cache_of old); discriminate. }
  set (rq := mkReq url _) in *.
  destruct (answer rq) as [| |st e dt b] eqn:Ea; try discriminate.
  destruct (Z.eqb_spec st 304) as [->|N304]; [destruct (cache_of old); discriminate|].
  destruct (Z.eqb_spec st 200) as [->|N200]; cbn [negb] in *; [|discriminate].
  destruct b as [b|]; [|discriminate]. cbn [f_write f_reqs] in *. injection Hw as <-.
  assert (Ed : downloads_of [rq] answer = [mkDl url e dt b]).
  { unfold downloads_of. cbn [flat_map]. rewrite Ea. reflexivity. }
  rewrite Ed.
  set (cache' := if negb (seqb e "") || negb (seqb dt "") then Some (mkCache url e dt (Some b)) else cache_of old) in *.
  destruct (string_dec q "") as [->|Q].
  2:{ left. cbn [cache_of]. exact (torn_cache _ _ _ E Q). }
  rewrite sapp_nil_r in E. subst p. cbn [cache_of].
  assert (K : forall x, good_dl url (ds ++ [mkDl url e dt b]) (match x with Some y => Some (valid_cache y) | None => None end) ->
     good_dl url (ds ++ [mkDl url e dt b]) (fst (dec_cache (enc_cache x)))).
  { intros [x|] H; [rewrite cache_round; exact H|now left]. }
  apply K. unfold cache'. destruct (negb (seqb e "") || negb (seqb dt "")) eqn:Eh.
  - right. exists (mkDl url e dt b). split; [apply in_or_app; right; now left|]. split; [reflexivity|]. split; [|reflexivity].
    apply orb_true_iff in Eh. destruct Eh as [Eh|Eh]; apply negb_true_iff, seqb_neq in Eh; [left|right]; exact Eh.
  - destruct Hold as [->|(d & Hd & Hu & Hne & ->)]; [now left|]. right. exists d. split; [apply in_or_app; now left|].
    split; [assumption|]. split; [assumption|]. unfold valid_cache, dl_cache. cbn [c_url c_etag c_date c_body]. now rewrite !to_valid_idem.
Qed.

Lemma history_good path fs0 fs ds : (forall u v, path u = path v -> u = v) -> (forall u, fs0 (path u) = None) ->
  zip_history path fs0 fs ds -> forall url, good_dl url ds (cache_of (fs (path url))).
Proof.
  intros Hinj H0 H. induction H as [|fs ds url offline answer file' new H IH f Hnew Hw]; intros u.
  - left. now rewrite H0.
  - unfold file_set. destruct (seqb_spec (path u) (path url)) as [E|E].
    + apply Hinj in E. subst u new. destruct (f_write f) as [c|] eqn:Ef.
      * eapply write_good; [apply IH|exact Ef|exact Hw|reflexivity].
      * subst file'. apply good_dl_more, IH.
    + apply good_dl_more, IH.
Qed.

Lemma zip_coherent path fs0 fs ds : (forall u v, path u = path v -> u = v) -> (forall u, fs0 (path u) = None) ->
  zip_history path fs0 fs ds -> forall url,
  uncached url (fs (path url))
  \/ exists d, In d ds /\ d_url d = url /\ (d_etag d <> "" \/ d_date d <> "") /\ works_from url (fs (path url)) d.
Proof.
  intros Hinj H0 H url. destruct (history_good _ _ _ _ Hinj H0 H url) as [E|(d & Hd & Hu & Hne & E)].
  - left. now apply uncached_none.
  - right. exists d. split; [assumption|]. split; [assumption|]. split; [assumption|]. now apply works_from_cache.
Qed.

Lemma zip_current path fs0 fs ds url etag body answer : (forall u v, path u = path v -> u = v) -> (forall u, fs0 (path u) = None) ->
  zip_history path fs0 fs ds -> honest url etag body answer ->
  (forall d, In d ds -> d_url d = url -> to_valid (d_etag d) = etag -> d_body d = body) ->
  exists r, f_result (fetch_zip url false (fs (path url)) answer) = Ok r /\ (forall b dt, r = inr (b, dt) -> b = body).
Proof.
  intros Hinj H0 H Hs Huniq.
  pose proof (history_good _ _ _ _ Hinj H0 H url) as G.
  unfold fetch_zip. fold (cache_of (fs (path url))). set (c := cache_of (fs (path url))) in *.
  set (rq := mkReq url _). destruct (Hs rq eq_refl) as [H200 H304].
  destruct (answer rq) as [| |st e dt b] eqn:Ea; try (eexists; split; [reflexivity|intros; discriminate]).
  destruct (Z.eqb_spec st 304) as [->|N304].
  - destruct (H304 _ _ _ eq_refl) as [dd Hc]. destruct G as [E|(d & Hd & Hu & Hne & E)]; unfold rq in Hc; rewrite E in Hc |- *; [discriminate|].
    cbn in Hc. injection Hc as He _. eexists. split; [reflexivity|]. intros b' dt' Hb. cbn in Hb. injection Hb as <- _. now apply Huniq.
  - destruct (Z.eqb_spec st 200) as [->|N200]; cbn [negb]; [|eexists; split; [reflexivity|intros; discriminate]].
    destruct b as [b|]; [|eexists; split; [reflexivity|intros; discriminate]].
    eexists. split; [reflexivity|]. intros b' dt' Hb. injection Hb as <- _. exact (H200 _ _ _ eq_refl).
Qed.

Lemma torn_uncached c p q : enc_cache c = p +s+ q -> q <> "" -> forall url, uncached url (Some p).
Proof. intros E Q url. apply uncached_none. exact (torn_cache _ _ _ E Q). Qed.

(** what a fetch writes is a whole cache document *)
Lemma fetch_writes url offline file answer c : f_write (fetch_zip url offline file answer) = Some c -> exists x, c = enc_cache x.
Proof.
  unfold fetch_zip. fold (cache_of file). destruct offline; [destruct (cache_of file); discriminate|].
  destruct (answer _) as [| |st e dt b]; try discriminate.
  destruct (st =? 304); [destruct (cache_of file); discriminate|]. destruct (negb (st =? 200)); [discriminate|].
  destruct b; [|discriminate]. cbn [f_write]. intros H. injection H as <-. eauto.
Qed.
Lemma crash_safe url offline file answer c p q : f_write (fetch_zip url offline file answer) = Some c ->
  c = p +s+ q -> q <> "" -> forall url', uncached url' (Some p).
Proof. intros H E Q. destruct (fetch_writes _ _ _ _ _ H) as [x Ex]. apply (torn_uncached x p q); [congruence|exact Q]. Qed.

Lemma fetch_online url file answer : exists cond,
  let rq := mkReq url cond in let f := fetch_zip url false file answer in
  match answer rq with
  | ZInvalid => f = mkF (Ok (inl ZRequest)) None []
  | ZFailed => f = mkF (Ok (inl ZTransport)) None [rq]
  | ZResp st e dt b =>
      f_reqs f = [rq]
      /\ (st <> 200 -> st <> 304 -> f_result f = Ok (inl (ZStatus st)) /\ f_write f = None)
      /\ (st = 200 -> b = None -> f_result f = Ok (inl ZBody) /\ f_write f = None)
      /\ (st = 304 -> f_write f = None /\ (cond = None -> f_result f = Panic))
      /\ (forall body, st = 200 -> b = Some body -> f_result f = Ok (inr (body, dt)))
  end.
Proof.
  unfold fetch_zip. fold (cache_of file). set (cond := match cache_of file with Some c => Some (c_etag c, c_date c) | None => None end).
  exists cond. cbn zeta. destruct (answer (mkReq url cond)) as [| |st e dt b]; try reflexivity.
  destruct (Z.eqb_spec st 304) as [->|N304].
  - unfold cond. destruct (cache_of file) as [c|]; cbn [f_reqs f_result f_write].
    + split; [reflexivity|]. split; [congruence|]. split; [lia|]. split; [split; [reflexivity|discriminate]|lia].
    + split; [reflexivity|]. split; [congruence|]. split; [lia|]. split; [split; reflexivity|lia].
  - destruct (Z.eqb_spec st 200) as [->|N200]; cbn [negb].
    + destruct b as [b|]; cbn [f_reqs f_result f_write].
      * split; [reflexivity|]. split; [congruence|]. split; [discriminate|]. split; [lia|]. intros body _ H. injection H as <-. reflexivity.
      * split; [reflexivity|]. split; [congruence|]. split; [auto|]. split; [lia|discriminate].
    + cbn [f_reqs f_result f_write]. split; [reflexivity|]. split; [auto|]. split; [lia|]. split; [lia|]. intros; lia.
Qed.

Lemma fetch_offline url file answer : let f := fetch_zip url true file answer in f_reqs f = [] /\ f_write f = None
  /\ forall answer', fetch_zip url true file answer' = f.
Proof. cbn. unfold fetch_zip. fold (cache_of file). destruct (cache_of file); auto. Qed.

(** C25 *)
Lemma wanted_fun wd dec e o o' : wanted wd dec e o -> wanted wd dec e o' -> o = o'.
Proof. intros (_ & _ & c & E1 & E2) (_ & _ & c' & E3 & E4). congruence. Qed.
Lemma zip_entry_spec names wd dec db e :
  (exists o, wanted wd dec e o /\ zip_entry dec names wd db e = add_vulnerability db o names)
  \/ ((forall o, ~ wanted wd dec e o) /\ zip_entry dec names wd db e = db).
Proof.
  unfold zip_entry, load_zip_file. destruct e as [name content]. cbn [fst snd].
  destruct (has_prefix name wd) eqn:E1; cbn [negb].
  2:{ right. split; [|reflexivity]. intros o ((r & Hr) & _). cbn in Hr. subst name. rewrite has_prefix_app in E1. discriminate. }
  destruct (has_suffix name ".json") eqn:E2; cbn [negb].
  2:{ right. split; [|reflexivity]. intros o (_ & (r & Hr) & _). cbn [fst] in Hr.
      assert (H : has_suffix name ".json" = true) by (apply has_suffix_iff; now exists r). congruence. }
  destruct content as [content|].
  2:{ right. split; [|reflexivity]. intros o (_ & _ & c & Hc & _). discriminate. }
  destruct (dec content) as [o bad] eqn:Ed. destruct bad.
  - right. split; [|reflexivity]. intros o' (_ & _ & c & Hc & Hd). cbn in Hc. injection Hc as <-. congruence.
  - left. exists o. split; [|reflexivity]. split; [now apply has_prefix_iff|]. split; [now apply has_suffix_iff|]. exists content. auto.
Qed.
Lemma archive_exists wd dec l : exists os, archive_osvs wd dec l os.
Proof.
  induction l as [|e l [os IH]]; [exists []; constructor|].
  destruct (zip_entry_spec [] wd dec empty_db e) as [(o & Ho & _)|[Hn _]].
  - exists (o :: os). now constructor.
  - exists os. now constructor.
Qed.
Lemma archive_fun wd dec l os os' : archive_osvs wd dec l os -> archive_osvs wd dec l os' -> os = os'.
Proof.
  intros H. revert os'. induction H as [|e l o os Hw H IH|e l os Hn H IH]; intros os' K; inversion K as [|e' l' o' os2 Hw' H'|e' l' os2 Hn' H']; subst.
  - reflexivity.
  - rewrite (wanted_fun _ _ _ _ _ Hw Hw'). f_equal. now apply IH.
  - elim (Hn' _ Hw).
  - elim (Hn _ Hw').
  - now apply IH.
Qed.
Lemma zip_entries_spec names wd dec l os db : archive_osvs wd dec l os ->
  fold_left (zip_entry dec names wd) l db = fold_left (fun db o => add_vulnerability db o names) os db.
Proof.
  intros H. revert db. induction H as [|e l o os Hw H IH|e l os Hn H IH]; intros db; cbn [fold_left]; [reflexivity|..].
  - destruct (zip_entry_spec names wd dec db e) as [(o' & Ho & ->)|[Hn _]]; [|elim (Hn _ Hw)].
    rewrite (wanted_fun _ _ _ _ _ Hw Ho). apply IH.
  - destruct (zip_entry_spec names wd dec db e) as [(o' & Ho & _)|[_ ->]]; [elim (Hn _ Ho)|apply IH].
Qed.
Lemma zip_load_spec unzip dec url wd offline names file answer db date w rqs :
  zip_load unzip dec url wd offline names file answer = (Ok (inr (db, date)), w, rqs) <->
  exists body entries os, fetch_zip url offline file answer = mkF (Ok (inr (body, date))) w rqs
    /\ unzip body = Some entries /\ archive_osvs wd dec entries os /\ db = load_all names os.
Proof.
  unfold zip_load. destruct (fetch_zip url offline file answer) as [r w' rqs']. cbn [f_result f_write f_reqs]. split.
  - intros H. injection H as Hr <- <-. destruct r as [[e|[body d]]|]; cbn [rbind] in Hr; try discriminate.
    destruct (unzip body) as [entries|] eqn:Eu; [|discriminate]. injection Hr as <- <-.
    destruct (archive_exists wd dec entries) as [os Hos]. exists body, entries, os. split; [reflexivity|]. split; [assumption|]. split; [assumption|].
    now apply zip_entries_spec.
  - intros (body & entries & os & H & Hu & Ha & ->). injection H as -> <- <-. cbn [rbind]. rewrite Hu.
    rewrite (zip_entries_spec names wd dec entries os empty_db Ha). reflexivity.
Qed.
Lemma zip_load_errors unzip dec url wd offline names file answer e w rqs :
  zip_load unzip dec url wd offline names file answer = (Ok (inl e), w, rqs) <->
  (fetch_zip url offline file answer = mkF (Ok (inl e)) w rqs)
  \/ (e = ZArchive /\ exists body date, fetch_zip url offline file answer = mkF (Ok (inr (body, date))) w rqs /\ unzip body = None).
Proof.
  unfold zip_load. destruct (fetch_zip url offline file answer) as [r w' rqs']. cbn [f_result f_write f_reqs]. split.
  - intros H. injection H as Hr <- <-. destruct r as [[e'|[body d]]|]; cbn [rbind] in Hr; try discriminate.
    + injection Hr as ->. now left.
    + destruct (unzip body) as [entries|] eqn:Eu; [discriminate|]. injection Hr as <-. right. eauto.
  - intros [H|(-> & body & date & H & Hu)]; injection H as -> <- <-; cbn [rbind]; [reflexivity|]. now rewrite Hu.
Qed.

(** a completed write *)
Lemma completed_download url file answer rq e dt b ds : good_dl url ds (cache_of file) ->
  f_reqs (fetch_zip url false file answer) = [rq] -> answer rq = ZResp 200 e dt (Some b) ->
  exists contents, f_write (fetch_zip url false file answer) = Some contents
    /\ ((e <> "" \/ dt <> "") -> forall url', works_from url' (Some contents) (mkDl url e dt b))
    /\ (e = "" -> dt = "" -> forall url' offline answer', fetch_zip url' offline (Some contents) answer' = fetch_zip url' offline file answer').
Proof.
  intros G Hr Ea. unfold fetch_zip in Hr |- * at 1. fold (cache_of file) in Hr |- *. set (rq' := mkReq url _) in *.
  assert (E : rq' = rq).
  { destruct (answer rq') as [| |st e' dt' b']; try discriminate Hr; [injection Hr as ->; reflexivity|].
    destruct (st =? 304); [destruct (cache_of file); injection Hr as ->; reflexivity|].
    destruct (negb (st =? 200)); [injection Hr as ->; reflexivity|]. destruct b'; injection Hr as ->; reflexivity. }
  rewrite E, Ea in *. cbn [Z.eqb Pos.eqb negb f_write]. eexists. split; [reflexivity|].
  split.
  - intros Hne url'. apply works_from_cache. cbn [cache_of].
    assert (Eb : negb (seqb e "") || negb (seqb dt "") = true).
    { apply orb_true_iff. destruct Hne as [H|H]; [left|right]; now apply negb_true_iff, seqb_neq. }
    rewrite Eb. rewrite cache_round. reflexivity.
  - intros -> -> url'. apply fetch_cache. cbn [cache_of]. change (negb (seqb "" "") || negb (seqb "" "")) with false. cbv iota.
    destruct G as [->|(d & _ & _ & _ & ->)]; [reflexivity|]. rewrite cache_round.
    cbn [fst]. unfold valid_cache, dl_cache. cbn [c_url c_etag c_date c_body]. now rewrite !to_valid_idem.
Qed.
Lemma completed_in_history path fs0 fs ds url answer rq e dt b :
  (forall u v, path u = path v -> u = v) -> (forall u, fs0 (path u) = None) -> zip_history path fs0 fs ds ->
  f_reqs (fetch_zip url false (fs (path url)) answer) = [rq] -> answer rq = ZResp 200 e dt (Some b) ->
  exists contents, f_write (fetch_zip url false (fs (path url)) answer) = Some contents
    /\ ((e <> "" \/ dt <> "") -> works_from url (Some contents) (mkDl url e dt b))
    /\ (e = "" -> dt = "" -> forall offline answer', fetch_zip url offline (Some contents) answer' = fetch_zip url offline (fs (path url)) answer').
Proof.
  intros Hinj H0 H Hr Ea. destruct (completed_download url _ answer rq e dt b ds (history_good _ _ _ _ Hinj H0 H url) Hr Ea) as (c & A & B & C).
  exists c. split; [exact A|]. split; [intros; now apply B|intros; now apply C].
Qed.

Lemma not_json url content : parse content = None \/ parse content = Some JNull -> uncached url (Some content).
Proof. intros H. apply uncached_none. cbn [cache_of]. unfold dec_cache. destruct H as [-> | ->]; reflexivity. Qed.
Lemma own_document url u e d b : to_valid e = e -> to_valid d = d -> works_from url (Some (enc_cache (Some (mkCache u e d (Some b))))) (mkDl u e d b).
Proof. intros He Hd. apply works_from_cache. cbn [cache_of]. rewrite cache_round. reflexivity. Qed.
Lemma offline_none url answer : fetch_zip url true None answer = mkF (Ok (inl ZOfflineNotFound)) None [].
Proof. reflexivity. Qed.
Lemma online_none url answer : answer (mkReq url None) <> ZInvalid -> f_reqs (fetch_zip url false None answer) = [mkReq url None].
Proof.
  intros N. unfold fetch_zip. destruct (answer (mkReq url None)) as [| |st e d b]; [contradiction|reflexivity|].
  destruct (st =? 304); [reflexivity|]. destruct (negb (st =? 200)); [reflexivity|]. destruct b; reflexivity.
Qed.
Lemma zip_offline unzip dec_osv url wd names file answer result write reqs :
  zip_load unzip dec_osv url wd true names file answer = (result, write, reqs) ->
  reqs = [] /\ forall answer', zip_load unzip dec_osv url wd true names file answer' = (result, write, reqs).
Proof.
  unfold zip_load. destruct (fetch_offline url file answer) as (A & _ & C). rewrite A. intros H. injection H as <- <- <-.
  split; [reflexivity|]. intros answer'. rewrite (C answer'), A. reflexivity.
Qed.
Lemma offline_cached url u etag date body answer : to_valid etag = etag -> to_valid date = date ->
  fetch_zip url true (Some (enc_cache (Some (mkCache u etag date (Some body))))) answer = mkF (Ok (inr (body, date))) None [].
Proof. intros He Hd. destruct (own_document url u etag date body He Hd) as [H _]. rewrite H. cbn [d_body d_date]. now rewrite Hd. Qed.
Lemma offline_not_found url file answer :
  (file = None \/ exists content, file = Some content /\ (parse content = None \/ parse content = Some JNull)) ->
  fetch_zip url true file answer = mkF (Ok (inl ZOfflineNotFound)) None [].
Proof. intros [->|(c & -> & H)]; [reflexivity|]. rewrite (not_json url c H). reflexivity. Qed.
Lemma not_found_iff url file answer :
  (file = None \/ exists content, file = Some content /\ ((forall j, ~ JsonSpec.json_doc content j) \/ JsonSpec.json_doc content JNull)) <->
  fetch_zip url true file answer = mkF (Ok (inl ZOfflineNotFound)) None [].
Proof.
  split.
  - intros H. apply offline_not_found. destruct H as [H|(c & H & K)]; [now left|right]. exists c. split; [exact H|]. destruct K as [K|K]; [left|right; now apply JsonGrammar.parse_iff].
    destruct (parse c) as [j|] eqn:P; [|reflexivity]. apply JsonGrammar.parse_iff in P. now apply K in P.
  - destruct file as [c|]; [|now left]. intros H. right. exists c. split; [reflexivity|]. unfold fetch_zip, dec_cache in H.
    destruct (parse c) as [j|] eqn:P; [|left; intros j J; apply JsonGrammar.parse_iff in J; congruence]. right. apply JsonGrammar.parse_iff. rewrite P.
    destruct j; [reflexivity|discriminate H..|]. destruct (fold_left _ _ _); discriminate H.
Qed.
Lemma prefix_refuted : exists wd name rest dec o,
  name = wd +s+ rest /\ (forall r, rest <> "/" +s+ r) /\ archive_osvs wd dec [(name, Some "{}")] [o].
Proof.
  exists "npm", "npm-extra/x.json", "-extra/x.json", (fun _ => (mkOSV "" [] "" "" "" None "" [], false)), (mkOSV "" [] "" "" "" None "" []).
  split; [reflexivity|]. split; [intros r; discriminate|]. constructor; [|constructor].
  split; [now exists "-extra/x.json"|]. split; [now exists "npm-extra/x"|]. now exists "{}".
Qed.
