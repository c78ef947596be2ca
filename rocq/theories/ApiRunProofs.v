From Verif Require Import GoStr GoStrFacts GoSort GoMap Types Osv OsvSpec OsvProofs MemDB MemDBSpec MemDBProofs Path Api ApiSpec ApiProofs ZipDB ZipSpec ZipProofs DirDB DirDBSpec DirDBProofs DbConfig Configer ConfigSpec ConfigProofs Lockfile Json Report ReportSpec ReportProofs Main MainSpec MainTrace MainProofs DiscoverProofs RunProofs RunFacts RunEnd EndSpec EndProofs ApiRunSpec.

Section Server.
Variable post : string -> string -> http -> Prop.
Variable get : string -> http -> Prop.

Lemma answered_fun a pkgs x y : settled post get -> answered post a pkgs x -> answered post a pkgs y -> x = y.
Proof.
  intros [SP _] (b1 & a1 & B1 & F1 & ->) (b2 & a2 & B2 & F2 & ->). pose proof (batches_fun _ _ _ _ B1 B2) as <-. f_equal.
  clear B1 B2. revert a2 F2. induction F1 as [|b i bs is' (h & P & G) F1 IH]; intros a2 F2; inversion F2 as [|? i2 ? is2 (h2 & P2 & G2) F2']; subst; [reflexivity|].
  pose proof (SP _ _ _ _ P P2) as <-. apply batch_reply_ok in G, G2. rewrite G in G2. injection G2 as <-. f_equal. auto.
Qed.
(** a check that succeeds returns, for each package, what the server listed *)
Lemma check_lists S dec a pkgs rs posts gets : SorterOk S -> db_ok a pkgs -> api_check S dec post get a pkgs (Ok (inr rs)) posts gets ->
  exists idss, answered post a pkgs idss /\ Forall2 (Forall2 (fun id v => o_id v = id /\ (settled post get -> told post get dec a pkgs id v))) idss rs.
Proof.
  intros HS K H. destruct (api_check_ok _ HS _ _ _ _ _ _ _ _ K H) as (bs & ans & fetched & B & _ & F & ND & IN & _ & G & _ & R).
  assert (An : answered post a pkgs (concat ans)) by (exists bs, ans; auto).
  assert (Li : forall q, In q (map fst fetched) -> exists i, lists post a pkgs i q).
  { intros q Q. apply IN in Q as (ids & I1 & I2). destruct (In_nth_error _ _ I1) as (i & Ni). exists i, (concat ans), ids. auto. }
  exists (concat ans). split; [exact An|].
  assert (Sub : forall ids, In ids (concat ans) -> forall id, In id ids -> In id (map fst fetched)) by (intros ids I1 id I2; apply IN; eauto).
  revert Sub R. generalize (concat ans) as idss. clear An F H. intros idss Sub R.
  revert Sub. induction R as [|ids vs idss rs Rv R IH]; intros Sub; constructor.
  - specialize (Sub ids (or_introl eq_refl)). clear IH R. revert Sub. induction Rv as [|id v ids vs (Q & C) Rv IH]; intros Sub; constructor.
    + split; [exact Q|]. intros [_ SG]. destruct C as [(q & Hq)|(-> & N)].
      * destruct (Li q (in_map fst _ _ Hq)) as (i & L). destruct (G q v Hq) as (h & G1 & G2). eapply told_details; eauto.
      * pose proof (Sub id (or_introl eq_refl)) as I. apply in_map_iff in I as ([q d] & E & I). cbn in E. subst q.
        destruct (G id d I) as (h & G1 & G2). eapply told_nothing; eauto.
    + apply IH. intros id' I. apply Sub. now right.
  - apply IH. intros ids' I. apply Sub. now right.
Qed.
(** a server that answers every batch usably makes the check succeed *)
Lemma check_succeeds S dec a pkgs r posts gets idss : SorterOk S -> settled post get -> db_ok a pkgs -> api_check S dec post get a pkgs (Ok r) posts gets ->
  answered post a pkgs idss -> exists rs, r = inr rs.
Proof.
  intros HS [SP _] K H (bs & ans & B & F & _). destruct r as [e|rs]; [|eauto]. exfalso.
  destruct (api_check_err _ _ _ _ _ _ _ _ _ K H) as (_ & bs' & b & h & B' & Hin & Hp & Hb).
  pose proof (batches_fun _ _ _ _ B B') as <-. destruct (Forall2_left _ _ _ _ F Hin) as (ids & _ & h' & P' & G').
  pose proof (SP _ _ _ _ Hp P') as <-. apply (proj1 (good_or_bad b h)); eauto.
Qed.
Lemma loads_api E O cache names c db : loads_as E O cache names c (inr db) -> dc_type c = "api" ->
  exists a, db = ApiD a /\ o_offline O = false /\ (1 <= o_batch O)%Z /\ api_of E O c a.
Proof.
  intros (before & w & reqs & B & H) T. unfold load_db in H. rewrite T in H. cbn [seqb] in H.
  change (seqb "api" "zip") with false in H. change (seqb "api" "api") with true in H. cbv iota in H.
  destruct (new_api_db _ _ _ _ _ _) as [e|a] eqn:A; [discriminate|]. injection H as <- <- <-.
  apply new_api_db_iff in A as (A1 & A2 & u & A3 & ->). exists (mkAPI (dc_name c) (identifier c) u (o_batch O)).
  split; [reflexivity|]. split; [exact A1|]. split; [exact A2|]. exists (dc_name c), u. auto.
Qed.
(** databases for the same config differ in name only *)
Lemma api_of_same E O d d' a a' : identifier d = identifier d' -> dc_url d = dc_url d' -> api_of E O d a -> api_of E O d' a' ->
  api_batch a = api_batch a' /\ api_url a = api_url a' /\ api_ident a = api_ident a'.
Proof. intros I U (n & u & P & ->) (n' & u' & P' & ->). cbn. rewrite U in P. rewrite P in P'. injection P' as <-. auto. Qed.
Lemma api_of_move E O d d' a : identifier d = identifier d' -> dc_url d = dc_url d' -> api_of E O d a -> api_of E O d' a.
Proof. intros I U (n & u & P & ->). exists n, u. now rewrite <- I, <- U. Qed.
Lemma answered_move a a' pkgs idss : api_batch a = api_batch a' -> api_url a = api_url a' -> answered post a pkgs idss -> answered post a' pkgs idss.
Proof.
  intros Eb Eu (bs & ans & B & F & Q). exists bs, ans. rewrite <- Eb. split; [exact B|]. split; [|exact Q].
  unfold bulk_endpoint in *. now rewrite <- Eu.
Qed.
Lemma unanswered_move a a' pkgs : api_batch a = api_batch a' -> api_url a = api_url a' -> unanswered post a pkgs -> unanswered post a' pkgs.
Proof. intros Eb Eu (bs & b & B & F & Q). exists bs, b. rewrite <- Eb. unfold bulk_endpoint in *. rewrite <- Eu. auto. Qed.
Lemma lists_move a a' pkgs i id : api_batch a = api_batch a' -> api_url a = api_url a' -> lists post a pkgs i id -> lists post a' pkgs i id.
Proof. intros Eb Eu (idss & ids & A & N). exists idss, ids. split; [eapply answered_move; eauto|exact N]. Qed.
Lemma told_move dec a a' pkgs id o : api_batch a = api_batch a' -> api_url a = api_url a' -> told post get dec a pkgs id o -> told post get dec a' pkgs id o.
Proof.
  intros Eb Eu [i q h L G R Q|h d G R N Q].
  - eapply told_details; [eapply lists_move; eauto| |exact R|exact Q]. unfold osv_endpoint in *. now rewrite <- Eu.
  - eapply told_nothing; [|exact R|exact N|exact Q]. unfold osv_endpoint in *. now rewrite <- Eu.
Qed.

(** ** in a session *)
Lemma session_api E O fs cache l0 e mode rs names ds tr : distinct_names E O fs -> failures tr = [] ->
  inputs E O l0 e -> session E O fs cache mode (map as_arg l0) rs names ds tr ->
  forall l c d, uses E O fs l c d -> dc_type d = "api" ->
  exists a ck k used ans rows, In ck (checks tr) /\ api_of E O d a /\ (1 <= o_batch O)%Z /\ o_offline O = false
    /\ In (ApiD a) used /\ Forall2 (answers E k (lf_pkgs l)) used ans
    /\ transpose_all (lf_pkgs l) (ignores_of O c) 0 (given ans) = Ok rows
    /\ ck_dbs ck = map db_ident used /\ ck_raw ck = given ans /\ ck_report ck = mkRep l rows.
Proof.
  intros DN HF HI [S1 S2 S3 S4 S5 S6 S7 S8] l c d U T.
  destruct (uses_in _ _ _ _ _ _ _ _ _ _ HI S1 S2 U) as [UI As].
  assert (Hd : In (identifier d) (map identifier (loads tr))) by (apply S4; eauto 6).
  apply in_map_iff in Hd as (d' & Id & D'). destruct (S8 d' D') as (l' & c' & U1 & As1).
  assert (Us' : uses E O fs l' c' d') by (exists l0, e, mode, rs; auto).
  destruct (same_identifier _ _ _ _ _ _ _ _ _ DN U Us' (eq_sym Id)) as (Q1 & Q2 & Q3).
  destruct (proj1 (loaded_in _ _ _ _ _ _ _ S6) d' D' HF) as (db & DB1 & DB2).
  destruct (loads_content _ _ _ _ _ _ DB2) as [Iq _]. destruct (loads_api _ _ _ _ _ _ DB2) as (a & -> & A1 & A2 & A3); [congruence|].
  destruct (Forall2_left _ _ _ _ S7 UI) as (ck & K1 & k & ce & Ef & Co).
  destruct Ef as (Ef1 & Ef2 & Ef3). destruct Co as [used ans rows Us An Tr].
  assert (Iu : In (ApiD a) used).
  { apply (selects_all _ _ _ _ Us DB1). rewrite Iq, Id. apply Ef3. eauto. }
  exists a. eexists. exists k, used, ans, rows. split; [exact K1|]. split; [apply (api_of_move E O d' d); auto|].
  split; [exact A2|]. split; [exact A1|]. split; [exact Iu|]. split; [exact An|]. unfold ignores_of in *. rewrite Ef2 in Tr. split; [exact Tr|]. cbn. auto.
Qed.
Lemma row_of pkgs ign ans rows i p rsl v : transpose_all pkgs ign 0 (given ans) = Ok rows -> nth_error pkgs i = Some p ->
  In (Some rsl) ans -> In v (nth i rsl []) ->
  exists row g, In row rows /\ pv_pkg row = p /\ (g = v \/ related g v)
    /\ ((In g (pv_vulns row) /\ ~ In (o_id g) ign) \/ (In g (pv_ignored row) /\ In (o_id g) ign)).
Proof.
  intros Tr Ni An1 V1. destruct (rows_divided _ _ _ _ _ Tr) as [R1 R2].
  assert (Lr : i < List.length rows) by (rewrite <- (map_length pv_pkg rows), R1; apply nth_error_Some; congruence).
  destruct (nth_error rows i) as [row|] eqn:Nr; [|apply nth_error_None in Nr; lia].
  assert (Pr : pv_pkg row = p) by (apply (map_nth_error pv_pkg) in Nr; rewrite R1 in Nr; congruence).
  destruct (R2 i row Nr) as (kk & Dk & Dv). cbn [Nat.add] in Dk.
  assert (Vf : In v (found (given ans) i)).
  { unfold found. apply in_concat. exists (nth i rsl []). split; [apply in_map_iff; exists rsl; split; [reflexivity|now apply given_in]|exact V1]. }
  destruct (dedup_props _ _ Dk) as (_ & _ & Dc). destruct Dv as [Dv1 Dv2].
  assert (G : exists g, In g kk /\ (g = v \/ related g v)) by exact (Dc v Vf).
  destruct G as (g & G1 & G2). exists row, g. split; [eapply nth_error_In; eauto|]. split; [exact Pr|]. split; [exact G2|].
  destruct (in_dec string_dec (o_id g) ign) as [X|X].
  - right. split; [apply (selects_in _ _ _ _ Dv2); auto|exact X].
  - left. split; [apply (selects_in _ _ _ _ Dv1); auto|exact X].
Qed.
Lemma Forall2_at {A B} (R : A -> B -> Prop) l l' : Forall2 R l l' -> forall i x, nth_error l i = Some x -> exists y, nth_error l' i = Some y /\ R x y.
Proof. induction 1 as [|a b l l' H F IH]; intros [|i] x N; cbn in *; try discriminate; [injection N as <-; eauto|eauto]. Qed.
Lemma Forall2_at_r {A B} (R : A -> B -> Prop) l l' : Forall2 R l l' -> forall i y, nth_error l' i = Some y -> exists x, nth_error l i = Some x /\ R x y.
Proof. induction 1 as [|a b l l' H F IH]; intros [|i] x N; cbn in *; try discriminate; [injection N as <-; eauto|eauto]. Qed.

Lemma Forall2_same_length {A B} (R : A -> B -> Prop) l l' : Forall2 R l l' -> List.length l = List.length l'.
Proof. induction 1; cbn; congruence. Qed.
Lemma api_fits E O l d a : fits O l -> api_of E O d a -> (1 <= o_batch O)%Z -> db_ok a (lf_pkgs l).
Proof. intros [F1 F2] (n & u & _ & ->) B. split; cbn; auto. Qed.
Theorem run_api_accounts E O : SorterOk (e_sort E) -> IterOk (e_iter E) -> EntriesOk E -> served post get E -> settled post get ->
  forall fs cache code s', checking O -> distinct_names E O fs -> run E O (start fs cache) = (Ok code, s') -> code = 0%Z \/ code = 1%Z ->
  forall l c d a i p id, uses E O fs l c d -> dc_type d = "api" -> fits O l -> api_of E O d a -> nth_error (lf_pkgs l) i = Some p ->
  lists post a (lf_pkgs l) i id ->
  exists o, told post get (w_dec_osv (e_world E)) a (lf_pkgs l) id o
    /\ exists ck row g, In ck (checks (s_trace s')) /\ rp_lock (ck_report ck) = l /\ In row (rp_pkgs (ck_report ck)) /\ pv_pkg row = p
    /\ (g = o \/ related g o)
    /\ ((In g (pv_vulns row) /\ ~ In (o_id g) (ignores_of O c)) \/ (In g (pv_ignored row) /\ In (o_id g) (ignores_of O c))).
Proof.
  intros HS HI HE SV ST fs cache code s' HC DN H Hc. pose proof (run_outcome E O HS HI HE fs cache code s' HC H) as Out.
  destruct Out as [| e | | l0 e mode rs names ds code K I N Ss Ex Mi].
  - destruct Hc; discriminate.
  - destruct (negb e && _); destruct Hc; discriminate.
  - destruct Hc; discriminate.
  - assert (F : failures (s_trace s') = []) by (destruct Ex; auto; destruct Hc; discriminate).
    intros l c d a i p id U T Fi Ao Ni (idss & ids & An & Nd & Idd).
    destruct (session_api _ _ _ _ _ _ _ _ _ _ _ DN F I Ss l c d U T) as (a' & ck & k & used & ans & rows & K1 & A1 & B1 & Of & Iu & Fa & Tr & _ & _ & Kr).
    destruct (api_of_same _ _ _ _ _ _ eq_refl eq_refl Ao A1) as (Eb & Eu & _).
    pose proof (answered_move _ _ _ _ Eb Eu An) as An'. pose proof (api_fits _ _ _ _ _ Fi A1 B1) as Ok'.
    destruct (Forall2_left _ _ _ _ Fa Iu) as (an & An1 & An2).
    destruct (SV k a' (lf_pkgs l)) as (posts & gets & Ck).
    assert (X : exists rsl, an = Some rsl /\ e_api E k a' (lf_pkgs l) = Ok (inr rsl)).
    { inversion An2 as [| |a0 rsl R|a0 er R]; subst; [eauto|]. rewrite R in Ck.
      destruct (check_succeeds _ _ _ _ _ _ _ _ HS ST Ok' Ck An') as (x & X). discriminate. }
    destruct X as (rsl & -> & R). rewrite R in Ck.
    destruct (check_lists _ _ _ _ _ _ _ HS Ok' Ck) as (idss' & An3 & F2). pose proof (answered_fun _ _ _ _ ST An' An3) as <-.
    destruct (Forall2_at _ _ _ F2 i ids Nd) as (vs & Nv & F3). destruct (Forall2_left _ _ _ _ F3 Idd) as (v & V1 & V2 & V3).
    assert (V4 : In v (nth i rsl [])) by now rewrite (nth_error_nth _ _ _ Nv).
    destruct (row_of _ _ _ _ _ _ _ _ Tr Ni An1 V4) as (row & g & G1 & G2 & G3 & G4).
    exists v. split; [eapply told_move; [symmetry; exact Eb|symmetry; exact Eu|exact (V3 ST)]|].
    exists ck, row, g. rewrite Kr. cbn [rp_lock rp_pkgs]. auto 8.
Qed.
Theorem run_api_clean E O : SorterOk (e_sort E) -> IterOk (e_iter E) -> EntriesOk E -> served post get E -> settled post get ->
  forall fs cache s', checking O -> distinct_names E O fs -> run E O (start fs cache) = (Ok 0%Z, s') ->
  forall l c d a i p id, uses E O fs l c d -> dc_type d = "api" -> fits O l -> api_of E O d a -> nth_error (lf_pkgs l) i = Some p ->
  lists post a (lf_pkgs l) i id ->
  exists o g, told post get (w_dec_osv (e_world E)) a (lf_pkgs l) id o /\ (g = o \/ related g o) /\ In (o_id g) (ignores_of O c).
Proof.
  intros HS HI HE SV ST fs cache s' HC DN H l c d a i p id U T Fi Ao Ni Li.
  destruct (run_api_accounts E O HS HI HE SV ST fs cache 0%Z s' HC DN H (or_introl eq_refl) l c d a i p id U T Fi Ao Ni Li)
    as (o & To & ck & row & g & K1 & K2 & K3 & K4 & K5 & [[G1 G2]|[G1 G2]]); [|eauto].
  exfalso. destruct (proj1 (exit_zero E O HS HI HE fs cache 0%Z s' HC H) eq_refl) as [_ X]. apply X. apply Exists_exists. exists ck. split; [exact K1|].
  unfold flawed, advisories. intros Q. assert (Y : In g (concat (map pv_vulns (rp_pkgs (ck_report ck))))) by (apply in_concat; exists (pv_vulns row); split; [now apply in_map|exact G1]).
  rewrite Q in Y. destruct Y.
Qed.
Theorem run_api_unanswered E O : SorterOk (e_sort E) -> IterOk (e_iter E) -> EntriesOk E -> served post get E ->
  forall fs cache code s', checking O -> distinct_names E O fs -> run E O (start fs cache) = (Ok code, s') ->
  forall l c d a, uses E O fs l c d -> dc_type d = "api" -> fits O l -> api_of E O d a -> unanswered post a (lf_pkgs l) ->
  messages KErr (s_trace s') <> [] /\ (code = 1%Z \/ code = 127%Z).
Proof.
  intros HS HI HE SV fs cache code s' HC DN H l c d a U T Fi Ao Un. pose proof (run_outcome E O HS HI HE fs cache code s' HC H) as Out.
  destruct Out as [KA Id ME| e KA Ii Id ME| l0 e er KA Ii Nl NC Cf L Id ME | l0 e mode rs names ds code K I N Ss Ex Mi]; [auto| | |].
  - exfalso. destruct U as (l1 & e1 & m1 & rs1 & I1 & _ & R1 & U1 & _). destruct (inputs_unique _ _ _ _ _ _ Ii I1) as [<- _].
    inversion R1; subst. destruct U1.
  - auto.
  - destruct (failures (s_trace s')) as [|f fl] eqn:F.
    + destruct (session_api _ _ _ _ _ _ _ _ _ _ _ DN F I Ss l c d U T) as (a' & ck & k & used & ans & rows & K1 & A1 & B1 & Of & Iu & Fa & Tr & Kd & Kw & Kr).
      destruct (api_of_same _ _ _ _ _ _ eq_refl eq_refl Ao A1) as (Eb & Eu & _).
      pose proof (unanswered_move _ _ _ Eb Eu Un) as Un'. pose proof (api_fits _ _ _ _ _ Fi A1 B1) as Ok'.
      destruct (Forall2_left _ _ _ _ Fa Iu) as (an & An1 & An2). destruct (SV k a' (lf_pkgs l)) as (posts & gets & Ck).
      assert (X : an = None).
      { inversion An2 as [| |a0 rsl R|a0 er R]; subst; [|reflexivity]. rewrite R in Ck.
        destruct (api_check_complete _ HS _ _ _ _ _ _ _ _ Ok' Ck Un') as (x & X). discriminate. }
      subst an. assert (Lk : lacking ck).
      { unfold lacking. rewrite Kw, Kd, map_length. rewrite (Forall2_same_length _ _ _ Fa). clear - An1. unfold given.
        assert (Le : forall l : list (option (list (list OSV))), List.length (flat_map (fun o => match o with Some x => [x] | None => [] end) l) <= List.length l).
        { induction l as [|[x|] l IH]; cbn; lia. }
        induction ans as [|[x|] ans IH]; [destruct An1| |].
        - destruct An1 as [An1|An1]; [discriminate|]. cbn. specialize (IH An1). lia.
        - cbn. specialize (Le ans). lia. }
      assert (ME : messages KErr (s_trace s') <> []) by (apply Mi, mh_answer, Exists_exists; eauto).
      split; [exact ME|]. destruct Ex; auto. contradiction.
    + assert (NF : failures (s_trace s') <> []) by (rewrite F; discriminate).
      split; [apply Mi, mh_load; exact NF|]. destruct Ex; auto; rewrite F in *; discriminate.
Qed.
Lemma session_api_grounds E O fs cache l0 e mode rs names ds tr : SorterOk (e_sort E) -> served post get E -> settled post get -> distinct_names E O fs ->
  inputs E O l0 e -> session E O fs cache mode (map as_arg l0) rs names ds tr ->
  forall ck row v, In ck (checks tr) -> fits O (rp_lock (ck_report ck)) -> In row (rp_pkgs (ck_report ck)) -> In v (pv_vulns row ++ pv_ignored row) ->
  exists c d, uses E O fs (rp_lock (ck_report ck)) c d
    /\ (In v (pv_vulns row) -> ~ In (o_id v) (ignores_of O c)) /\ (In v (pv_ignored row) -> In (o_id v) (ignores_of O c))
    /\ (api_grounds post get E O d (rp_lock (ck_report ck)) (pv_pkg row) v
       \/ exists o, osv_same o v /\ may_hold E O cache d o /\ o_withdrawn o = None /\ (checkable (e_sem E) [o] (pv_pkg row) -> osv_affects (e_sem E) o (pv_pkg row))).
Proof.
  intros HS SV ST DN I [S1 S2 S3 S4 S5 S6 S7 S8] ck row v K1 Fi Ir V.
  destruct (Forall2_right _ _ _ _ S7 K1) as ([l c] & UI & k & ce & (Ef1 & Ef2 & Ef3) & Co).
  destruct Co as [used ans rows Us An Tr]. cbn [ck_report rp_pkgs rp_lock] in *.
  destruct (In_nth_error _ _ Ir) as (i & Nr).
  destruct (rows_divided _ _ _ _ _ Tr) as [R1 R2]. destruct (R2 i row Nr) as (kk & Dk & Dv1 & Dv2). cbn [Nat.add] in Dk.
  assert (Np : nth_error (lf_pkgs l) i = Some (pv_pkg row)) by (rewrite <- R1; now apply map_nth_error).
  assert (Vk : In v kk) by (apply in_app_or in V as [V|V]; [apply (selects_in _ _ _ _ Dv1) in V|apply (selects_in _ _ _ _ Dv2) in V]; apply V).
  destruct (dedup_props _ _ Dk) as (Dinc & _). apply Dinc in Vk.
  unfold found in Vk. apply in_concat in Vk as (x & X1 & X2). apply in_map_iff in X1 as (rsl & <- & X1). apply given_in in X1.
  destruct (Forall2_right _ _ _ _ An X1) as (db & Du & Da). apply (selects_in _ _ _ _ Us) in Du as [Dd Di].
  apply Ef3 in Di as (d & As & Id). destruct (proj2 (loaded_in _ _ _ _ _ _ _ S6) db Dd) as (d' & D1 & D2).
  destruct (S8 d' D1) as (l' & c' & U' & As').
  assert (Us0 : uses E O fs l c d) by (exists l0, e, mode, rs; auto). assert (Us' : uses E O fs l' c' d') by (exists l0, e, mode, rs; auto).
  destruct (loads_content _ _ _ _ _ _ D2) as [Iq Ct]. rewrite Iq in Id.
  destruct (same_identifier _ _ _ _ _ _ _ _ _ DN Us' Us0 (eq_sym Id)) as (Q2 & Q3 & Q4).
  exists c, d. split; [exact Us0|]. split; [|split].
  { intros Z. apply (selects_in _ _ _ _ Dv1) in Z as [_ Z]. unfold ignores_of in *. now rewrite Ef2 in Z. }
  { intros Z. apply (selects_in _ _ _ _ Dv2) in Z as [_ Z]. unfold ignores_of in *. now rewrite Ef2 in Z. }
  destruct Ct as [[T _]|(os & Ct)].
  - left. destruct (loads_api _ _ _ _ _ _ D2 T) as (a & -> & A1 & A2 & A3). pose proof (api_of_move _ _ _ d a (eq_sym Id) Q3 A3) as A4.
    split; [congruence|]. split; [exact A1|]. exists a, i. split; [exact A4|]. split; [exact Np|].
    inversion Da as [| |a0 rsl0 R|]; subst. destruct (SV k a (lf_pkgs l)) as (posts & gets & Ck). rewrite R in Ck.
    destruct (check_lists _ _ _ _ _ _ _ HS (api_fits _ _ _ _ _ Fi A3 A2) Ck) as (idss & An3 & F2).
    assert (Nv : exists vs, nth_error rsl i = Some vs /\ In v vs).
    { destruct (nth_error rsl i) as [vs|] eqn:Nv; [rewrite (nth_error_nth _ _ _ Nv) in X2; eauto|]. apply nth_error_None in Nv. rewrite nth_overflow in X2 by exact Nv. destruct X2. }
    destruct Nv as (vs & Nv & Iv). destruct (Forall2_at_r _ _ _ F2 i vs Nv) as (ids & Nd & F3). destruct (Forall2_right _ _ _ _ F3 Iv) as (id & I1 & <- & To).
    split; [exists idss, ids; auto|exact (To ST)].
  - right. assert (Y : exists o, In o os /\ osv_same o v /\ o_withdrawn o = None /\ (checkable (e_sem E) [o] (pv_pkg row) -> osv_affects (e_sem E) o (pv_pkg row))).
    { destruct Ct as [n date entries os' T Ar Ao|n os' T I']; inversion Da; subst;
      match goal with Hh : history _ _ _ ?dbx, Hc : check _ _ ?dbx _ = Ok _ |- _ =>
        apply (history_state _ _ _ _ _ _ HS (db_state_load _ _)) in Hh;
        destruct (check_nth _ _ _ _ HS _ _ _ _ Hh Hc i _ Np) as (db1 & db2 & vs' & Y1 & Y2 & Y3);
        rewrite (nth_error_nth _ _ _ Y3) in X2; eapply affecting_from; eauto
      end. }
    destruct Y as (o & O1 & O2 & O3). exists o. split; [exact O2|]. split; [|exact O3].
    eapply (may_same _ _ _ d' d); auto. eapply content_may; eauto.
Qed.
Theorem run_api_grounds E O : SorterOk (e_sort E) -> IterOk (e_iter E) -> EntriesOk E -> served post get E -> settled post get ->
  forall fs cache code s', checking O -> distinct_names E O fs -> run E O (start fs cache) = (Ok code, s') ->
  forall ck row v, In ck (checks (s_trace s')) -> fits O (rp_lock (ck_report ck)) -> In row (rp_pkgs (ck_report ck)) -> In v (pv_vulns row ++ pv_ignored row) ->
  exists c d, uses E O fs (rp_lock (ck_report ck)) c d
    /\ (In v (pv_vulns row) -> ~ In (o_id v) (ignores_of O c)) /\ (In v (pv_ignored row) -> In (o_id v) (ignores_of O c))
    /\ (api_grounds post get E O d (rp_lock (ck_report ck)) (pv_pkg row) v
       \/ exists o, osv_same o v /\ may_hold E O cache d o /\ o_withdrawn o = None /\ (checkable (e_sem E) [o] (pv_pkg row) -> osv_affects (e_sem E) o (pv_pkg row))).
Proof.
  intros HS HI HE SV ST fs cache code s' HC DN H ck row v K. pose proof (run_outcome E O HS HI HE fs cache _ s' HC H) as Out.
  assert (Idle : idle (s_trace s') -> False) by (intros [Id _]; rewrite Id in K; destruct K).
  destruct Out as [| | |l0 e mode rs names ds code K0 I N S Ex Mi]; try (exfalso; apply Idle; assumption).
  eapply session_api_grounds; eauto.
Qed.
End Server.
