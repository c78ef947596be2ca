(** C75: JSON is read and written as RFC 8259 says *)
From Verif Require Import GoStr GoStrFacts Types Json Utf8 MemDB OsvJson OsvJsonSpec OsvJsonProofs OsvJsonRound.
From Verif Require Import ZipDB Base64 CacheDoc.
From Verif Require JsonSpec JsonUtf8 JsonKeys JsonChars JsonGrammar JsonWrite Base64Spec Base64Proofs.

Theorem C75_read : forall s v, Json.parse s = Some v <-> JsonSpec.json_doc s v.
Proof. exact JsonGrammar.parse_iff. Qed.
Print Assumptions C75_read.
(** of the texts of the RFC, just those nested deeper than 10000 are refused *)
Theorem C75_limit : forall s v, JsonSpec.json_text s v -> (Json.parse s = None <-> ~ JsonSpec.within 10000 v).
Proof.
  intros s v T. destruct (Json.parse s) as [w|] eqn:P.
  - split; [discriminate|]. intros N. apply JsonGrammar.parse_iff in P as [T' W]. apply JsonGrammar.text_iff in T, T'. rewrite T in T'. injection T' as ->. contradiction.
  - split; [|auto]. intros _ W. assert (H : Json.parse s = Some v) by now apply JsonGrammar.parse_iff. congruence.
Qed.
Print Assumptions C75_limit.
Definition nest (n : N) : string := N.iter n (fun s => String "[" (s +s+ "]")) "1".
Definition nest_doc (n : N) : json := N.iter n (fun v => JArr [v]) (JNum "1").
Lemma nest_reads n : JsonSpec.json_text (nest n) (nest_doc n) /\ depth (nest_doc n) = n.
Proof.
  assert (H : print (nest_doc n) = nest n /\ JsonRound.good (nest_doc n) = true /\ depth (nest_doc n) = n).
  { unfold nest, nest_doc. induction n as [|n IH] using N.peano_ind; [repeat split|]. rewrite !N.iter_succ. destruct IH as (P & G & D). split; [|split].
    - cbn [print map join]. now rewrite P.
    - cbn [JsonRound.good forallb]. now rewrite G.
    - cbn [depth fold_right]. rewrite D. f_equal. apply N.max_0_r. }
  destruct H as (P & G & D). split; [|exact D]. rewrite <- P. apply JsonGrammar.text_iff, JsonRound.text_print, G.
Qed.
Example C75_limit_case : JsonSpec.json_doc (nest 10000) (nest_doc 10000) /\ JsonSpec.json_text (nest 10001) (nest_doc 10001) /\ Json.parse (nest 10001) = None.
Proof.
  split; [split; [apply nest_reads|]|split; [apply nest_reads|]].
  - apply JsonGrammar.depth_iff. rewrite (proj2 (nest_reads _)). reflexivity.
  - apply (C75_limit _ _ (proj1 (nest_reads _))). intros W. apply JsonGrammar.depth_iff in W. rewrite (proj2 (nest_reads _)) in W. now apply W.
Qed.
(** a member is read as a field exactly when its key spells the field's name *)
Theorem C75_keys : forall f k, JsonSpec.field_name f -> (fold_key k = f <-> JsonSpec.spells k f).
Proof. exact JsonKeys.keys_iff. Qed.
Print Assumptions C75_keys.
Lemma id_name : JsonSpec.field_name "id".
Proof. cbn. unfold JsonSpec.lower_case, JsonSpec.byte. cbn. repeat split; try lia; intros d (n & <- & _ & H); lia. Qed.
Theorem C75_keys_read : forall rfc3339 text k s, JsonSpec.json_doc text (JObj [(k, JStr s)]) -> s <> "" ->
  (o_id (fst (dec_osv rfc3339 text)) = s <-> JsonSpec.spells k "id").
Proof.
  intros f text k s D N. apply JsonGrammar.parse_iff in D. rewrite <- (C75_keys _ _ id_name). unfold dec_osv. rewrite D. unfold d_osv, d_struct, d_members.
  generalize (fold_key k). intros q. destruct (seqb_spec q "id") as [->|Q]; [split; reflexivity|]. split; [|contradiction]. intros H. exfalso. apply N. rewrite <- H. clear.
  repeat (match goal with |- context [seqb q ?x] => destruct (seqb q x) end; [unfold on, d_time_ptr, d_time; destruct (f s); cbn; reflexivity|]). reflexivity.
Qed.
Print Assumptions C75_keys_read.
Definition long_s : string := String "197" (String "191" "").
Definition kelvin : string := String "226" (String "132" (String "170" "")).
Example C75_keys_case : JsonSpec.spells (long_s +s+ "UmmaRY") "summary" /\ JsonSpec.spells ("pac" +s+ kelvin +s+ "age") "package" /\ ~ JsonSpec.spells "summary_" "summary"
  /\ JsonSpec.json_doc "{""iD"":""X""}" (JObj [("iD", JStr "X")]) /\ JsonSpec.spells "iD" "id".
Proof.
  assert (F : forall f, forallb (fun c => N.ltb (N_of_ascii c) 128 && negb (is_upper c)) (list_ascii_of_string f) = true -> JsonSpec.field_name f).
  { induction f as [|c f IH]; cbn; [auto|]. intros H. apply andb_prop in H as [H1 H2]. apply andb_prop in H1 as [H0 H1]. apply N.ltb_lt in H0. split; [|auto].
    intros d L. assert (U : is_upper c = true) by (apply JsonKeys.is_upper_iff; eauto). rewrite U in H1. discriminate. }
  repeat match goal with |- _ /\ _ => split end; try (apply JsonGrammar.parse_iff; vm_compute; reflexivity); try (apply C75_keys; [apply F|]; vm_compute; reflexivity).
  intros S. apply C75_keys in S; [discriminate S|apply F; reflexivity].
Qed.
Theorem C75_written : forall j t, print j = t <-> JsonSpec.compact j t.
Proof. exact JsonWrite.print_compact. Qed.
Print Assumptions C75_written.
Theorem C75_bytes : forall s v, JsonSpec.cleaned s v <-> v = to_valid s.
Proof. exact JsonUtf8.cleaned_iff. Qed.
Print Assumptions C75_bytes.
(** so an advisory's text alone decides how it is read *)
Theorem C75_advisory : forall rfc3339 content j o, JsonSpec.json_doc content j -> osv_doc rfc3339 j o -> dec_osv rfc3339 content = (o, false).
Proof. intros f c j o T D. apply JsonGrammar.parse_iff in T. now apply (dec_doc f c j o). Qed.
Print Assumptions C75_advisory.
Theorem C75_advisory_only : forall rfc3339 content o, dec_osv rfc3339 content = (o, false) ->
  exists j, JsonSpec.json_doc content j /\ (no_repeats j -> osv_doc rfc3339 j o).
Proof. intros f c o H. destruct (dec_only f c o H) as (j & P & D). exists j. split; [now apply JsonGrammar.parse_iff|exact D]. Qed.
Print Assumptions C75_advisory_only.
Theorem C75_base64_read : forall s t, b64_dec s = Some t <-> Base64Spec.base64_read s t.
Proof. exact Base64Proofs.dec_iff. Qed.
Print Assumptions C75_base64_read.
Theorem C75_base64_written : forall t s, b64_enc t = s <-> Base64Spec.base64_of t s.
Proof. exact Base64Proofs.enc_iff. Qed.
Print Assumptions C75_base64_written.
(** cache files *)
Theorem C75_cache_offline : forall url text l d date b body answer, JsonSpec.json_doc text (JObj l) ->
  member l "date" d -> says d date -> member l "body" b -> bytes_of b body ->
  fetch_zip url true (Some text) answer = mkF (Ok (inr (body, date))) None [].
Proof. exact cache_offline. Qed.
Print Assumptions C75_cache_offline.
Theorem C75_cache_online : forall url text l e etag d date answer, JsonSpec.json_doc text (JObj l) ->
  member l "etag" e -> says e etag -> member l "date" d -> says d date ->
  let q := mkReq url (Some (etag, date)) in
  f_reqs (fetch_zip url false (Some text) answer) = match answer q with ZInvalid => [] | _ => [q] end.
Proof. exact cache_online. Qed.
Print Assumptions C75_cache_online.
Theorem C75_cache_written : forall url file answer etag date body text,
  (forall q, answer q = ZResp 200 etag date (Some body)) -> etag <> "" \/ date <> "" -> Base64Spec.base64_of body text ->
  exists t, f_write (fetch_zip url false file answer) = Some t
    /\ JsonSpec.compact (JObj [("url", JStr url); ("etag", JStr etag); ("date", JStr date); ("body", JStr text)]) t.
Proof. exact cache_written. Qed.
Print Assumptions C75_cache_written.

(** ** a text with escapes, a pair of surrogates, a lone one, a stray byte, a
    number and an object *)
Definition u (s : string) : string := String "\" (String "u" s).
Definition ex_in : string :=
  " [ ""a" +s+ u "00e9" +s+ u "D83D" +s+ u "de00" +s+ u "d83d" +s+ "\/" +s+ String "195" """ , -1.50E+3, {"" "" : null , ""b"":[ ]}] ".
Definition ex_out : json :=
  JArr [JStr ("a" +s+ String "195" (String "169" (String "240" (String "159" (String "152" (String "128" (JsonSpec.unknown +s+ "/" +s+ JsonSpec.unknown)))))));
        JNum "-1.50E+3"; JObj [(" ", JNull); ("b", JArr [])]].
Definition ex_back : string :=
  "[""a" +s+ String "195" (String "169" (String "240" (String "159" (String "152" (String "128" (JsonSpec.unknown +s+ "/" +s+ JsonSpec.unknown
   +s+ """,-1.50E+3,{"" "":null,""b"":[]}]")))))).
(** a cache file not written by this program *)
Definition ex_cache : string := "{""Body"": ""UEs="", ""DATE"":""Mon"", ""x"":1}".
Example C75_case :
  JsonSpec.json_doc ex_in ex_out
  /\ JsonSpec.compact ex_out ex_back
  /\ JsonSpec.compact (JStr ("<" +s+ String "010" (String "001" (String "255" """")))) ("""" +s+ u "003c" +s+ "\n" +s+ u "0001" +s+ u "fffd" +s+ "\""""")
  /\ (forall v, ~ JsonSpec.json_doc "[1,]" v)
  /\ (forall v, ~ JsonSpec.json_doc "01" v)
  /\ JsonSpec.cleaned (String "195" "a") (JsonSpec.unknown +s+ "a")
  /\ Base64Spec.base64_of "PK!" "UEsh" /\ Base64Spec.base64_of "P" "UA=="
  /\ Base64Spec.base64_read ("U" +s+ String "010" "B=" +s+ String "013" "=") "P"
  /\ (exists l, JsonSpec.json_doc ex_cache (JObj l) /\ member l "date" (Some (JStr "Mon")) /\ member l "etag" None
                 /\ member l "body" (Some (JStr "UEs=")) /\ bytes_of (Some (JStr "UEs=")) "PK")
  /\ fetch_zip "u" true (Some ex_cache) (fun _ => ZFailed) = mkF (Ok (inr ("PK", "Mon"))) None [].
Proof.
  split; [apply JsonGrammar.parse_iff; vm_compute; reflexivity|].
  split; [apply JsonWrite.print_compact; vm_compute; reflexivity|].
  split; [apply JsonWrite.print_compact; vm_compute; reflexivity|].
  split; [intros v H; apply JsonGrammar.parse_iff in H; vm_compute in H; discriminate H|].
  split; [intros v H; apply JsonGrammar.parse_iff in H; vm_compute in H; discriminate H|].
  split; [apply JsonUtf8.cleaned_iff; vm_compute; reflexivity|].
  split; [apply Base64Proofs.enc_iff; vm_compute; reflexivity|].
  split; [apply Base64Proofs.enc_iff; vm_compute; reflexivity|].
  split; [apply Base64Proofs.dec_iff; vm_compute; reflexivity|].
  split; [|vm_compute; reflexivity].
  exists [("Body", JStr "UEs="); ("DATE", JStr "Mon"); ("x", JNum "1")].
  assert (K : forall k l, mem k (map (fun kv => fold_key (fst kv)) l) = false -> ~ keyed k l).
  { intros k l M (k' & v & I & E). apply Bool.not_true_iff_false in M. apply M. apply mem_iff. rewrite <- E. apply in_map_iff. exists (k', v). auto. }
  split; [apply JsonGrammar.parse_iff; vm_compute; reflexivity|].
  split; [apply (mb_some _ _ [("Body", JStr "UEs=")] "DATE" _ [("x", JNum "1")]); [reflexivity|reflexivity|apply K; reflexivity|apply K; reflexivity]|].
  split; [apply mb_none, K; reflexivity|].
  split; [apply (mb_some _ _ [] "Body" _ [("DATE", JStr "Mon"); ("x", JNum "1")]); [reflexivity|reflexivity|apply K; reflexivity|apply K; reflexivity]|].
  left. exists "UEs=". split; [reflexivity|]. apply Base64Proofs.dec_iff. vm_compute. reflexivity.
Qed.
