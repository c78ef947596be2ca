(** C71: advisories are read as their documents say, and survive being written *)
From Verif Require Import GoStr GoStrFacts Types Json MemDB OsvJson OsvJsonSpec OsvJsonProofs OsvJsonRound.
From Verif Require JsonSpec JsonGrammar.

Theorem C71_read : forall rfc3339 content j o, JsonSpec.json_doc content j -> osv_doc rfc3339 j o -> dec_osv rfc3339 content = (o, false).
Proof. intros f c j o P. apply JsonGrammar.parse_iff in P. now apply dec_doc. Qed.
Print Assumptions C71_read.
Theorem C71_only : forall rfc3339 content o, dec_osv rfc3339 content = (o, false) ->
  exists j, JsonSpec.json_doc content j /\ (no_repeats j -> osv_doc rfc3339 j o).
Proof. intros f c o D. destruct (dec_only f c o D) as (j & P & N). apply JsonGrammar.parse_iff in P. eauto. Qed.
Print Assumptions C71_only.
Theorem C71_spoiled : forall rfc3339 content l pu mo wi p m w, JsonSpec.json_doc content (JObj l) ->
  member l "published" pu -> member l "modified" mo -> member l "withdrawn" wi ->
  time_is rfc3339 pu p -> time_is rfc3339 mo m -> maybe_time rfc3339 wi w ->
  let o := fst (dec_osv rfc3339 content) in
  o_published o = p /\ o_modified o = m /\ o_withdrawn o = w
  /\ (forall v s, member l "id" v -> says v s -> o_id o = s)
  /\ (forall v s, member l "summary" v -> says v s -> o_summary o = s)
  /\ (forall v s, member l "details" v -> says v s -> o_details o = s)
  /\ (forall v x, member l "aliases" v -> texts v x -> o_aliases o = x)
  /\ (forall js x, member l "aliases" (Some (JArr js)) -> Forall2 text_or_blank js x -> o_aliases o = x)
  /\ (forall v x, member l "affected" v -> lists affected_doc v x -> o_affected o = x).
Proof. intros f c l pu mo wi p m w P. apply JsonGrammar.parse_iff in P. now apply spoiled. Qed.
Print Assumptions C71_spoiled.
Theorem C71_written : forall rfc3339 nil o, nil_ok nil -> sound rfc3339 o -> dec_osv rfc3339 (print (enc_osv nil o)) = (o, false).
Proof. exact round. Qed.
Print Assumptions C71_written.
Theorem C71_again : forall rfc3339 nil content, settles rfc3339 -> nil_ok nil ->
  dec_osv rfc3339 (print (enc_osv nil (fst (dec_osv rfc3339 content)))) = (fst (dec_osv rfc3339 content), false).
Proof. intros f nil c S N. apply round; [exact N|]. now apply read_sound. Qed.
Print Assumptions C71_again.

(** ** an advisory *)
Definition ex_time (s : string) : option string :=
  if seqb s "0001-01-01T00:00:00Z" then Some ""
  else if seqb (to_valid s) s && Nat.eqb (String.length s) 20 then Some s else None.
Definition ex_text : string :=
  "{""id"": ""GHSA-1"", ""Aliases"": [""CVE-1"", null], ""published"": ""2022-05-01T00:00:00Z"", ""schema_version"": 3,"
  +s+ " ""affected"": [{""package"": {""ecosystem"": ""npm"", ""name"": ""ab""}, ""versions"": null,"
  +s+ " ""ranges"": [{""type"": ""SEMVER"", ""events"": [{""introduced"": ""0""}, {""fixed"": ""1.2""}]}]}]}".
Definition ex_adv : OSV :=
  mkOSV "GHSA-1" ["CVE-1"; ""] "" "2022-05-01T00:00:00Z" "" None "" [mkAff (mkOPkg "ab" "npm") [] [mkRange "SEMVER" [mkEv "0" "" ""; mkEv "" "1.2" ""]]].
(** its "details" is no text *)
Definition ex_wrong : string := "{""details"": 7, ""id"": ""X-1"", ""summary"": ""s"", ""aliases"": [7, ""CVE-2""]}".
Lemma ex_time_settles : settles ex_time.
Proof.
  split; [reflexivity|]. intros s t. unfold ex_time. destruct (seqb_spec s "0001-01-01T00:00:00Z") as [-> |D]; [intros [= <-]; split; reflexivity|].
  destruct (seqb_spec (to_valid s) s) as [V|V]; [|discriminate]. destruct (Nat.eqb_spec (String.length s) 20) as [L|L]; [|discriminate]. intros [= <-].
  split; [exact V|]. unfold stamp. destruct s as [|a s]; [discriminate|]. destruct (seqb_spec (String a s) "0001-01-01T00:00:00Z") as [E|_]; [contradiction|].
  rewrite (proj2 (seqb_eq _ _) V), L. reflexivity.
Qed.
Example C71_case :
  dec_osv ex_time ex_text = (ex_adv, false)
  /\ (exists j, parse ex_text = Some j /\ no_repeats j /\ osv_doc ex_time j ex_adv)
  /\ dec_osv ex_time (print (enc_osv JNull ex_adv)) = (ex_adv, false)
  /\ sound ex_time ex_adv
  /\ dec_osv ex_time ex_wrong = (mkOSV "X-1" [""; "CVE-2"] "s" "" "" None "" [], true)
  /\ dec_osv ex_time "{""published"": ""soon"", ""id"": ""X-1""}" = (mkOSV "" [] "" "" "" None "" [], true)
  /\ dec_osv ex_time "{""id"": ""X-1"" " = (mkOSV "" [] "" "" "" None "" [], true)
  /\ settles ex_time.
Proof.
  assert (R : dec_osv ex_time ex_text = (ex_adv, false)) by (vm_compute; reflexivity).
  split; [exact R|]. split; [|split; [|split; [|split; [|split; [|split]]]]].
  - destruct (dec_only _ _ _ R) as (j & P & D). exists j. split; [exact P|]. assert (N : no_repeats j).
    { assert (Some j = parse ex_text) as E by now rewrite P. vm_compute in E. injection E as ->.
      cbn [no_repeats fold_right map fst snd]. repeat split; try exact Logic.I.
      all: repeat (constructor; [intros I; apply GoStrFacts.mem_iff in I; vm_compute in I; discriminate I|]); constructor. }
    auto.
  - vm_compute. reflexivity.
  - pose proof (read_sound ex_time ex_text ex_time_settles) as S. rewrite R in S. exact S.
  - vm_compute. reflexivity.
  - vm_compute. reflexivity.
  - vm_compute. reflexivity.
  - exact ex_time_settles.
Qed.
Print Assumptions C71_case.
