(** What a cache file says, as a JSON document: zip.go:33-39 read and written. *)
From Verif Require Import GoStr GoStrFacts Types Json JsonDec Base64 Osv MemDB ZipDB OsvJsonSpec OsvJsonProofs.
From Verif Require NumSpec NumProofs Base64Spec Base64Proofs JsonSpec JsonGrammar JsonWrite.

(** the bytes a member stands for: base64, or one number each *)
Inductive numbered : list json -> string -> Prop :=
| nb_nil : numbered [] ""
| nb_null : forall l b, numbered l b -> numbered (JNull :: l) (String "000" b)
| nb_num : forall lit n l c b, NumSpec.decimal lit n -> n = Z.of_N (N_of_ascii c) -> numbered l b -> numbered (JNum lit :: l) (String c b).
Definition bytes_of (v : option json) (b : string) : Prop :=
  (exists s, v = Some (JStr s) /\ Base64Spec.base64_read s b) \/ (exists l, v = Some (JArr l) /\ numbered l b) \/ unset v /\ b = "".

Section Field.
Context {A : Type} (get : Cache -> A) (k : string) (dec : json -> A -> A).
Hypothesis at_k : forall k' v c bad, fold_key k' = k -> get (fst (dec_cache_field (c, bad) (k', v))) = dec v (get c).
Hypothesis off_k : forall k' v c bad, fold_key k' <> k -> get (fst (dec_cache_field (c, bad) (k', v))) = get c.
Lemma field_kept l : forall c bad, ~ keyed k l -> get (fst (fold_left dec_cache_field l (c, bad))) = get c.
Proof.
  induction l as [|[k' v] l IH]; intros c bad N; [reflexivity|]. apply not_keyed_cons in N as [N1 N2]. cbn [fold_left].
  pose proof (off_k _ v c bad N1) as E. destruct (dec_cache_field (c, bad) (k', v)) as [c' bad']. rewrite IH by exact N2. exact E.
Qed.
Lemma field_read l m : member l k m -> get (fst (fold_left dec_cache_field l (no_cache_fields, false))) = match m with Some v => dec v (get no_cache_fields) | None => get no_cache_fields end.
Proof.
  intros [N|l1 k' v l2 -> K N1 N2]; [now apply field_kept|]. rewrite fold_left_app. cbn [fold_left].
  pose proof (field_kept l1 no_cache_fields false N1) as E1. destruct (fold_left dec_cache_field l1 _) as [c bad]. cbn [fst] in E1.
  pose proof (at_k k' v c bad K) as E2. destruct (dec_cache_field (c, bad) (k', v)) as [c' bad']. rewrite field_kept by exact N2. cbn [fst] in E2. now rewrite E2, E1.
Qed.
End Field.
Definition dec_text (v : json) (old : string) : string := match dec_string v old with Some s => s | None => old end.
Definition dec_bytes (v : json) (old : option string) : option string :=
  match v with JNull => None | JStr s => match b64_dec s with Some b => Some b | None => old end
  | JArr l => Some (fst (dec_byte_array l (bytes old))) | _ => old end.
Ltac cf := intros k' v c bad E; unfold dec_cache_field; cbn [fst snd];
  repeat match goal with |- context [if seqb (fold_key k') ?b then _ else _] => let Q := fresh "Q" in destruct (seqb_spec (fold_key k') b) as [Q|Q]; try (rewrite E in Q; discriminate Q); try (symmetry in Q; congruence); try congruence end;
  unfold dec_text, dec_bytes; try (destruct (dec_string v _); reflexivity); try reflexivity;
  destruct v; try reflexivity; try (destruct (b64_dec _); reflexivity);
  match goal with |- context [dec_byte_array ?l ?b] => change b with (bytes (c_body c)); destruct (dec_byte_array l (bytes (c_body c))); reflexivity end.
Lemma read_date l m : member l "date" m -> c_date (fst (fold_left dec_cache_field l (no_cache_fields, false))) = match m with Some v => dec_text v "" | None => "" end.
Proof. apply (field_read c_date "date" dec_text); cf. Qed.
Lemma read_etag l m : member l "etag" m -> c_etag (fst (fold_left dec_cache_field l (no_cache_fields, false))) = match m with Some v => dec_text v "" | None => "" end.
Proof. apply (field_read c_etag "etag" dec_text); cf. Qed.
Lemma read_body l m : member l "body" m -> c_body (fst (fold_left dec_cache_field l (no_cache_fields, false))) = match m with Some v => dec_bytes v None | None => None end.
Proof. apply (field_read c_body "body" dec_bytes); cf. Qed.
Lemma says_text m s : says m s -> match m with Some v => dec_text v "" | None => "" end = s.
Proof. intros [-> |[[-> | ->] ->]]; reflexivity. Qed.
Lemma bytes_of_body m b : bytes_of m b -> bytes (match m with Some v => dec_bytes v None | None => None end) = b.
Proof.
  intros [(s & -> & B)|[(l & -> & B)|[[-> | ->] ->]]]; [| |reflexivity..].
  - apply Base64Proofs.dec_iff in B. cbn [dec_bytes]. now rewrite B.
  - cbn [dec_bytes bytes]. induction B as [|l b _ IH|lit n l c b D -> _ IH]; [reflexivity| |]; cbn [dec_byte_array]; [cbn [dec_byte]|].
    + destruct (dec_byte_array l "") as [r e]. cbn [fst] in IH |- *. now rewrite IH.
    + apply NumProofs.decimal_iff in D as (N & D & V). unfold dec_byte. rewrite (NumProofs.neq_str_b _ N), D, V. cbn [andb].
      destruct (Z.leb_spec (Z.of_N (N_of_ascii c)) 255); [|pose proof (N_ascii_bounded c); lia]. rewrite N2Z.id, ascii_N_embedding.
      destruct (dec_byte_array l "") as [r e]. cbn [fst] in IH |- *. now rewrite IH.
Qed.

(** offline, a readable cache file gives its bytes and its date *)
Theorem cache_offline url text l d date b body answer : JsonSpec.json_doc text (JObj l) ->
  member l "date" d -> says d date -> member l "body" b -> bytes_of b body ->
  fetch_zip url true (Some text) answer = mkF (Ok (inr (body, date))) None [].
Proof.
  intros T D Sd B Sb. apply JsonGrammar.parse_iff in T. unfold fetch_zip, dec_cache. rewrite T.
  pose proof (read_date l d D) as Ed. pose proof (read_body l b B) as Eb. destruct (fold_left dec_cache_field l _) as [c bad]. cbn [fst] in *.
  rewrite Ed, Eb, (says_text _ _ Sd), (bytes_of_body _ _ Sb). reflexivity.
Qed.
(** online, the request carries its etag and date *)
Theorem cache_online url text l e etag d date answer : JsonSpec.json_doc text (JObj l) ->
  member l "etag" e -> says e etag -> member l "date" d -> says d date ->
  let q := mkReq url (Some (etag, date)) in
  f_reqs (fetch_zip url false (Some text) answer) = match answer q with ZInvalid => [] | _ => [q] end.
Proof.
  intros T E Se D Sd. apply JsonGrammar.parse_iff in T. cbv zeta. unfold fetch_zip, dec_cache. rewrite T.
  pose proof (read_date l d D) as Ed. pose proof (read_etag l e E) as Ee. destruct (fold_left dec_cache_field l _) as [c bad]. cbn [fst] in *.
  rewrite Ed, Ee, (says_text _ _ Sd), (says_text _ _ Se). destruct (answer _) as [| |st et da [bo|]]; try reflexivity;
    destruct (st =? 304)%Z; try reflexivity; destruct (negb _); reflexivity.
Qed.
(** what is written for a download *)
Theorem cache_written url file answer etag date body text :
  (forall q, answer q = ZResp 200 etag date (Some body)) -> etag <> "" \/ date <> "" -> Base64Spec.base64_of body text ->
  exists t, f_write (fetch_zip url false file answer) = Some t
    /\ JsonSpec.compact (JObj [("url", JStr url); ("etag", JStr etag); ("date", JStr date); ("body", JStr text)]) t.
Proof.
  intros A N B. eexists. split.
  - unfold fetch_zip. rewrite A. cbn [Z.eqb Pos.eqb negb f_write].
    assert (negb (seqb etag "") || negb (seqb date "") = true) as ->; [|reflexivity].
    destruct (seqb_spec etag "") as [-> |]; [|reflexivity]. destruct (seqb_spec date "") as [-> |]; [|reflexivity]. now destruct N.
  - apply JsonWrite.print_compact. apply Base64Proofs.enc_iff in B. subst text. reflexivity.
Qed.
