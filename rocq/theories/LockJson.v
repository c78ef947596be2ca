(** Decoding the documents of LockSpec. *)
From Verif Require Import GoStr GoStrFacts Types Json JsonDec MemDB MemDBProofs GoMap Scan PkgMapSpec PkgMap Built LockIO ListLocks KeyLocks FitSpec NumProofs LockSpec.
From Verif Require JsonRound JsonGrammar.

Lemma fields_none {S} (set : string -> json -> S -> option S) l :
  fold_left (fun acc kv => match acc with None => None | Some s => set (fold_key (fst kv)) (snd kv) s end) l None = None.
Proof. induction l as [|[k v] l IH]; cbn; auto. Qed.
Lemma dec_fields_cons {S} (set : string -> json -> S -> option S) k v l s0 :
  dec_fields set ((k, v) :: l) s0 = match set (fold_key k) v s0 with Some s => dec_fields set l s | None => None end.
Proof. unfold dec_fields. cbn [fold_left fst snd]. destruct (set (fold_key k) v s0); [reflexivity|apply fields_none]. Qed.
Lemma fields_shape {S} (set : string -> json -> S -> option S) ks w l :
  (forall k v s, ~ In k ks -> set k v s = Some s) -> shape ks w l -> forall s0,
  dec_fields set l s0 = fold_left (fun acc kv => match acc with None => None | Some s => set (fst kv) (snd kv) s end) w (Some s0).
Proof.
  intros I H. induction H as [|k k' v w l <- H IH|k v w l N H IH]; intros s0; [reflexivity| |].
  - rewrite dec_fields_cons. cbn [fold_left fst snd]. destruct (set (fold_key k') v s0); [apply IH|].
    clear. induction w as [|[k v] w IH]; cbn; auto.
  - rewrite dec_fields_cons, I by exact N. apply IH.
Qed.
Lemma struct_shape {S} (set : string -> json -> S -> option S) ks w j s0 :
  (forall k v s, ~ In k ks -> set k v s = Some s) -> obj ks w j ->
  dec_struct set s0 j = fold_left (fun acc kv => match acc with None => None | Some s => set (fst kv) (snd kv) s end) w (Some s0).
Proof. intros I (l & -> & H). cbn [dec_struct]. now apply (fields_shape set ks). Qed.
Lemma dec_all_spec {A} (d : json -> option A) es l : Forall2 (fun e v => d v = Some e) es l -> dec_all d l = Some es.
Proof. induction 1 as [|e v es l E F IH]; cbn; [reflexivity|]. now rewrite E, IH. Qed.
Lemma dec_map_spec {A} (d : json -> option A) (m : list (string * A)) j : jmap (fun e v => d v = Some e) m j -> dec_map d j = Some (Some m).
Proof.
  intros (l & -> & N & F). cbn [dec_map].
  enough (G : forall acc, (forall k, In k (map fst l) -> ~ In k (map fst acc)) ->
    fold_left (fun acc kv => match acc, d (snd kv) with Some m, Some a => Some (map_set (fst kv) a m) | _, _ => None end) l (Some acc) = Some (acc ++ m))
    by (rewrite (G []); [reflexivity|intros k _ []]).
  induction F as [|[k a] [k' v] m l [E D] F IH]; intros acc NI; cbn [fold_left]; [now rewrite app_nil_r|].
  cbn [fst snd] in *. subst k'. inversion N as [|? ? N1 N2]; subst. rewrite D, map_set_fresh by (apply NI; now left).
  rewrite IH, <- app_assoc; [reflexivity|exact N2|]. intros q Q. rewrite map_app, in_app_iff. cbn. intros [H|[<-|[]]]; [eapply NI; [right; exact Q|exact H]|contradiction].
Qed.
Lemma Forall2_imp {A B} (R S : A -> B -> Prop) l l' : (forall a b, R a b -> S a b) -> Forall2 R l l' -> Forall2 S l l'.
Proof. intros I F. induction F; constructor; auto. Qed.
Lemma jmap_impl {A} (P Q : A -> json -> Prop) m j : (forall a v, P a v -> Q a v) -> jmap P m j -> jmap Q m j.
Proof. intros I (l & -> & N & F). exists l. split; [reflexivity|]. split; [exact N|]. eapply Forall2_imp; [|exact F]. intros a b [E H]. split; auto. Qed.
Lemma jmap_map {A B} (f : A -> B) (P : B -> json -> Prop) m j : jmap (fun a v => P (f a) v) m j -> jmap P (map (fun e => (fst e, f (snd e))) m) j.
Proof. intros (l & -> & N & F). exists l. split; [reflexivity|]. split; [exact N|]. induction F as [|e kv m l [E H] F IH]; cbn; constructor; auto. inversion N; auto. Qed.
Lemma pointer_obj {A} (dec : json -> option A) content j l a : parse content = Some j -> j = JObj l -> dec j = Some a -> json_pointer dec content = Some (Some a).
Proof. intros P -> D. unfold json_pointer. now rewrite P, D. Qed.
Lemma decoded_json {A} files path ks w j (dec : json -> option A) a k : json_file files path j -> obj ks w j -> dec j = Some a ->
  decoded files (json_pointer dec) path k = k (Some a).
Proof. intros (c & F & P) (l & E & _) D. apply JsonGrammar.parse_iff in P. unfold decoded, read_file. now rewrite F, (pointer_obj _ _ _ _ _ P E D). Qed.

Ltac key_cases K := repeat match goal with |- context [seqb ?a ?b] => destruct (seqb_spec a b) as [->|]; [exfalso; apply K; cbn; tauto|] end.
Lemma nuget_package_dec r j : nuget_package r j -> dec_nuget_package j = Some r.
Proof.
  intros (w & O & H). unfold dec_nuget_package. rewrite (struct_shape _ ["resolved"] w); [|intros k v s K; key_cases K; reflexivity|exact H].
  destruct O as [->|[-> ->]]; reflexivity.
Qed.
Lemma nuget_doc_dec ver z m j : nuget_doc ver m j -> (ver = [] /\ z = 0%Z \/ exists v, ver = [("version", v)] /\ dec_int v 0%Z = Some z) ->
  dec_nuget j = Some (z, Some (map (fun f => (fst f, Some (snd f))) m)).
Proof.
  intros (d & H & M) V. unfold dec_nuget. rewrite (struct_shape _ ["version"; "dependencies"] (ver ++ [("dependencies", d)])); [|intros k v [a b] K; key_cases K; reflexivity|exact H].
  assert (D : dec_map (dec_map dec_nuget_package) d = Some (Some (map (fun f => (fst f, Some (snd f))) m))).
  { apply dec_map_spec. apply jmap_map. eapply jmap_impl; [|exact M]. intros a v A. apply dec_map_spec. eapply jmap_impl; [|exact A]. intros; now apply nuget_package_dec. }
  destruct V as [[-> ->]|(v & -> & Z)]; cbn -[dec_map dec_int]; [now rewrite D|]. rewrite Z. cbn -[dec_map dec_int]. now rewrite D.
Qed.
Lemma pipenv_package_dec r j : pipenv_package r j -> dec_pipenv_package j = Some r.
Proof.
  intros (w & O & H). unfold dec_pipenv_package. rewrite (struct_shape _ ["version"] w); [|intros k v s K; key_cases K; reflexivity|exact H].
  destruct O as [->|[-> ->]]; reflexivity.
Qed.
Lemma pipenv_doc_dec a b j : pipenv_doc a b j -> dec_pipenv j = Some (Some a, Some b).
Proof.
  intros (x & y & H & X & Y). unfold dec_pipenv. rewrite (struct_shape _ ["default"; "develop"] [("default", x); ("develop", y)]); [|intros k v [c d] K; key_cases K; reflexivity|exact H].
  assert (G : forall m v, jmap pipenv_package m v -> dec_map dec_pipenv_package v = Some (Some m)).
  { intros m v M. apply dec_map_spec. eapply jmap_impl; [|exact M]. intros; now apply pipenv_package_dec. }
  cbn -[dec_map]. rewrite (G a x X). cbn -[dec_map]. now rewrite (G b y Y).
Qed.
Lemma all_some l : dec_all Some l = Some l.
Proof. induction l as [|x l IH]; cbn; [reflexivity|]. now rewrite IH. Qed.
Lemma composer_package_dec p j : composer_package_doc p j -> dec_composer_package j = Some p.
Proof.
  intros [(d & w & H & O & D)|[H R]]; unfold dec_composer_package.
  - rewrite (struct_shape _ ["name"; "version"; "dist"] [("name", JStr (cm_name p)); ("version", JStr (cm_version p)); ("dist", d)]); [|intros k v s K; key_cases K; reflexivity|exact H].
    assert (E : dec_dist d "" = Some (cm_ref p)).
    { unfold dec_dist. rewrite (struct_shape _ ["reference"] w); [|intros k v s K; key_cases K; reflexivity|exact D]. destruct O as [->|[-> ->]]; reflexivity. }
    cbn -[dec_dist]. rewrite E. now destruct p.
  - rewrite (struct_shape _ ["name"; "version"; "dist"] [("name", JStr (cm_name p)); ("version", JStr (cm_version p))]); [|intros k v s K; key_cases K; reflexivity|exact H].
    cbn. rewrite <- R. now destruct p.
Qed.
Lemma jlist_dec {A} (P : A -> json -> Prop) d es j : (forall e v, P e v -> d v = Some e) -> jlist P es j -> dec_list d j = Some es.
Proof. intros I (l & -> & F). cbn. apply dec_all_spec. eapply Forall2_imp; [|exact F]. exact I. Qed.
Lemma composer_doc_dec a b j : composer_doc a b j -> dec_composer j = Some (a, b).
Proof.
  intros (x & y & H & X & Y). unfold dec_composer. rewrite (struct_shape _ ["packages"; "packages-dev"] [("packages", x); ("packages-dev", y)]); [|intros k v [c d] K; key_cases K; reflexivity|exact H].
  cbn -[dec_list]. rewrite (jlist_dec _ _ _ _ composer_package_dec X). cbn -[dec_list]. now rewrite (jlist_dec _ _ _ _ composer_package_dec Y).
Qed.
Lemma renv_package_dec p j : renv_package_doc p j -> dec_renv_package j = Some p.
Proof.
  intros (w & O & H). unfold dec_renv_package.
  rewrite (struct_shape _ ["package"; "version"; "repository"] ([("package", JStr (rv_package p)); ("version", JStr (rv_version p))] ++ w)); [|intros k v s K; key_cases K; reflexivity|exact H].
  destruct p as [n v r]. cbn [rv_package rv_version rv_repo] in *. destruct O as [->|[-> ->]]; reflexivity.
Qed.
Lemma renv_doc_dec m j : renv_doc m j -> dec_renv j = Some (Some m).
Proof.
  intros (x & H & X). unfold dec_renv. rewrite (struct_shape _ ["packages"] [("packages", x)]); [|intros k v s K; key_cases K; reflexivity|exact H].
  cbn -[dec_map]. apply dec_map_spec. eapply jmap_impl; [|exact X]. intros; now apply renv_package_dec.
Qed.

(** ** Numbers *)
Lemma dec_fuel_val f : forall n acc, (n < 2 ^ N.of_nat f)%N -> f <> 0 -> digits_val 0 (dec_fuel f n acc) = digits_val (Z.of_N n) acc.
Proof.
  induction f as [|f IH]; intros n acc L F; [congruence|]. cbn [dec_fuel].
  assert (M : forall z, digits_val z (String (digit_char (n mod 10)) acc) = digits_val (10 * z + Z.of_N (n mod 10)) acc).
  { intros z. cbn [digits_val]. f_equal. unfold digit_char. pose proof (N.mod_lt n 10). rewrite N_ascii_embedding; lia. }
  destruct (N.ltb_spec n 10).
  - rewrite M, N.mod_small by lia. f_equal. 
  - assert (D : (n / 10 < 2 ^ N.of_nat f)%N).
    { apply N.div_lt_upper_bound; [lia|]. rewrite Nnat.Nat2N.inj_succ, N.pow_succ_r' in L. lia. }
    rewrite IH; [|exact D|intros ->; cbn in D; pose proof (N.div_str_pos n 10); lia]. rewrite M. f_equal. pose proof (N.div_mod n 10). lia.
Qed.
Lemma dec_of_N_val n : digits_val 0 (dec_of_N n) = Z.of_N n.
Proof.
  unfold dec_of_N. rewrite dec_fuel_val; [reflexivity| |discriminate]. rewrite Nnat.Nat2N.inj_succ, N.pow_succ_r'.
  assert ((n < 2 ^ N.of_nat (N.size_nat n))%N); [|lia].
  replace (N.of_nat (N.size_nat n)) with (N.size n); [apply N.size_gt|]. destruct n as [|p]; [reflexivity|]. cbn. clear. induction p; cbn; lia.
Qed.
Lemma dec_fuel_digits f : forall n acc, str_forall is_digit acc = true -> str_forall is_digit (dec_fuel f n acc) = true.
Proof.
  induction f as [|f IH]; intros n acc A; cbn [dec_fuel]; [exact A|].
  assert (B : str_forall is_digit (String (digit_char (n mod 10)) acc) = true).
  { cbn [str_forall]. rewrite A, andb_true_r. pose proof (N.mod_lt n 10 ltac:(discriminate)). set (d := (n mod 10)%N) in *. clearbody d.
    destruct d as [|p]; [reflexivity|]. do 4 (destruct p as [p|p|]; try lia; try reflexivity). }
  destruct (n <? 10)%N; [exact B|now apply IH].
Qed.
Lemma dec_of_N_ne n : dec_of_N n <> "".
Proof.
  unfold dec_of_N. assert (G : forall f n acc, acc <> "" -> dec_fuel f n acc <> "").
  { induction f as [|f IH]; intros m acc A; cbn [dec_fuel]; [exact A|]. destruct (m <? 10)%N; [discriminate|]. apply IH. discriminate. }
  cbn [dec_fuel]. destruct (n <? 10)%N; [discriminate|]. apply G. discriminate.
Qed.
Lemma dec_int_nat n : (Z.of_nat n <= 9223372036854775807)%Z -> dec_int (JNum (dec_of_nat n)) 0 = Some (Z.of_nat n).
Proof.
  intros L. apply dec_int_some. split; [|unfold NumSpec.int64; lia]. constructor. apply decimal_iff. split; [apply dec_of_N_ne|]. split; [apply dec_fuel_digits; reflexivity|].
  unfold dec_of_nat. rewrite dec_of_N_val. apply nat_N_Z.
Qed.
Lemma any_ok_iff v : any_ok v = true <-> anything v.
Proof.
  induction v as [|b|n|s|l IH|l IH] using JsonRound.json_ind'; cbn [any_ok].
  - split; [constructor|reflexivity].
  - split; [constructor|reflexivity].
  - rewrite float_ok_iff. split; [intros [A B]; now constructor|now inversion 1].
  - split; [constructor|reflexivity].
  - rewrite forallb_forall. rewrite Forall_forall in IH. split; [intros H; constructor; intros x I; apply IH; auto|]. inversion 1; subst. intros x I. apply IH; auto.
  - rewrite forallb_forall. rewrite Forall_forall in IH. split.
    + intros H. constructor. intros k x I. apply (IH (k, x) I), (H (k, x) I).
    + inversion 1 as [| | | | |? H']; subst. intros [k x] I. apply (IH (k, x) I), (H' k x I).
Qed.
Lemma all_any l : Forall anything l -> dec_all (fun x => if any_ok x then Some x else None) l = Some l.
Proof. induction 1 as [|x l A _ IH]; cbn [dec_all]; [reflexivity|]. apply any_ok_iff in A. now rewrite A, IH. Qed.
Lemma bun_doc_dec m j : bun_doc m j -> dec_bun j = Some (Some m).
Proof.
  intros (ver & p & V & H & M). unfold dec_bun. rewrite (struct_shape _ ["lockfileversion"; "packages"] (ver ++ [("packages", p)])); [|intros k v [c d] K; key_cases K; reflexivity|exact H].
  assert (E : dec_map dec_tuple p = Some (Some m)) by (apply dec_map_spec; eapply jmap_impl; [|exact M]; intros t v [-> A]; now apply all_any).
  destruct V as [->|(n & -> & L)]; cbn -[dec_map dec_int dec_of_nat]; [now rewrite E|]. rewrite (dec_int_nat n L). cbn -[dec_map dec_int]. now rewrite E.
Qed.
