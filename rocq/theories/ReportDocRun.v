From Coq Require Import Permutation.
From Verif Require Import GoStr GoMap GoSort Types Json JsonRound Osv OsvSpec OsvProofs MemDB OsvJson OsvJsonSpec OsvJsonRound ZipSpec DirDBSpec DbConfig
  Lockfile Report ReportDocSpec ReportDocProofs Main MainSpec RunProofs RunFacts RunEnd EndSpec EndProofs.

Lemma texts_perm {A} (f : A -> list string) l l' : Permutation l l' -> Forall utf8 (flat_map f l) -> Forall utf8 (flat_map f l').
Proof. intros P H. rewrite flat_iff in *. eapply Permutation_Forall; eauto. Qed.
Lemma range_texts_same r r' : range_same r r' -> Forall utf8 (range_texts r) -> Forall utf8 (range_texts r').
Proof.
  intros [T P] H. unfold range_texts in *. inversion H as [|? ? A B]; subst. constructor; [congruence|]. eapply texts_perm; eauto.
Qed.
Lemma flat_forall2 {A} (R : A -> A -> Prop) (f : A -> list string) : (forall a b, R a b -> Forall utf8 (f a) -> Forall utf8 (f b)) ->
  forall l m, Forall2 R l m -> Forall utf8 (flat_map f l) -> Forall utf8 (flat_map f m).
Proof. intros H l m F. induction F; cbn [flat_map]; intros U; [exact U|]. apply Forall_app in U as [U1 U2]. apply Forall_app. split; eauto. Qed.
Lemma affected_texts_same a b : affected_same a b -> Forall utf8 (affected_texts a) -> Forall utf8 (affected_texts b).
Proof.
  intros (P & V & R) H. unfold affected_texts in *. rewrite <- P, <- V. rewrite !Forall_app in *. destruct H as (H1 & H2 & H3). repeat split; auto.
  eapply flat_forall2; [exact range_texts_same|exact R|exact H3].
Qed.
Lemma sound_same f o o' : osv_same o o' -> sound f o -> sound f o'.
Proof.
  intros S [U T]. destruct S as [S1 S2 S3 S4 S5 S6 S7 S8]. split.
  - unfold osv_texts in *. rewrite <- S1, <- S2, <- S3, <- S7. rewrite !Forall_app in *. destruct U as (U1 & U2 & U3). split; [exact U1|]. split; [exact U2|].
    eapply flat_forall2; [exact affected_texts_same|exact S8|exact U3].
  - unfold stamps in *. rewrite <- S4, <- S5, <- S6. exact T.
Qed.
Lemma held_sound E O f cache d o : settles f -> w_dec_osv (e_world E) = dec_osv f -> may_hold E O cache d o -> sound f o.
Proof.
  intros Se D [entries _ _ (e & _ & _ & _ & content & _ & Dc)|_ (u & q & _ & content & _ & _ & Dc)];
    rewrite D in Dc; pose proof (read_sound f content Se) as R; rewrite Dc in R; exact R.
Qed.
Section Run.
Variables (E : Env) (O : Opts) (f : string -> option string).
Hypothesis HS : SorterOk (e_sort E).
Hypothesis HI : IterOk (e_iter E).
Hypothesis HE : EntriesOk E.
Hypothesis Fa : faithful f (e_osv_json E).
Hypothesis Se : settles f.
Hypothesis Dc : w_dec_osv (e_world E) = dec_osv f.
Hypothesis Ap : forall k a pkgs rs, e_api E k a pkgs = Ok (inr rs) -> Forall (Forall (sound f)) rs.
Lemma run_sound fs cache code s' : checking O -> distinct_names E O fs -> run E O (start fs cache) = (Ok code, s') ->
  forall ck, In ck (checks (s_trace s')) -> Forall (fun x => Forall (sound f) (pv_vulns x ++ pv_ignored x)) (rp_pkgs (ck_report ck)).
Proof.
  intros HC DN H ck K. apply Forall_forall. intros row Ir. apply Forall_forall. intros v V.
  destruct (run_every E O HS HI HE fs cache code s' HC DN H ck row v K Ir V) as (c & d & _ & _ & _ & _ & G).
  destruct G as [(_ & k & a & rs & i & _ & A & _ & N)|(o & S & M & _)].
  - apply Ap in A. destruct (nth_in_or_default i rs []) as [X|X]; [|rewrite X in N; destruct N].
    rewrite Forall_forall in A. specialize (A _ X). rewrite Forall_forall in A. auto.
  - eapply sound_same; [exact S|]. eapply held_sound; eauto.
Qed.
Theorem run_document fs cache code s' : o_json O = true -> checking O -> distinct_names E O fs -> run E O (start fs cache) = (Ok code, s') ->
  (forall ck, In ck (checks (s_trace s')) -> Forall utf8 (report_texts (ck_report ck))) ->
  exists text j, stdout (s_trace s') = [text] /\ Json.parse_text text = Some j /\ results_doc f j (map ck_report (checks (s_trace s'))).
Proof.
  intros J HC DN H U.
  destruct (results_written f _ Fa (map ck_report (checks (s_trace s')))) as (j & P & R).
  { apply Forall_forall. intros r I. apply in_map_iff in I as (ck & <- & I). split; [now apply U|]. eapply run_sound; eauto. }
  rewrite map_map in P. destruct (json_stdout E O fs cache _ s' HI J H) as (n & d & T & S1 & S2 & _).
  destruct (run_shown E O fs cache code s' (proj2 (proj2 HC)) H) as [_ D]. rewrite J in D.
  assert (Q : messages KDoc (s_trace s') = [d]) by (rewrite T, messages_app, S2; reflexivity).
  exists d, j. split; [rewrite T; unfold stdout in *; rewrite flat_map_app, S1; reflexivity|]. split; [congruence|exact R].
Qed.
End Run.
