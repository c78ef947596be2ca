From Coq Require Import Lia Permutation.
From Verif Require Import GoStr GoStrFacts GoSort GoSortFacts Types Osv MemDB Path Api ZipDB DirDB DbConfig Configer GoMap Lockfile Csv Ecosystems Report Json Main.
From Verif Require Import OsvSpec MemDBSpec ReportSpec MainSpec MemDBProofs ReportProofs MainTrace MainProofs Surface RunFacts RunProofs RunOrderSpec RunOrderProofs QuietSpec QuietProofs.

(** ** what runs do before their checks *)
Lemma U_app {A} (m : M A) : (forall s, exists n, s_trace (snd (m s)) = s_trace s ++ n /\ checks n = []) -> keeps uncheck m.
Proof. intros H s. exact (H s). Qed.
Lemma U_silent {A} (m : M A) : (forall s, s_trace (snd (m s)) = s_trace s) -> keeps uncheck m.
Proof. intros H s. exists []. now rewrite H, app_nil_r. Qed.
Lemma U_emit e : checks [e] = [] -> keeps uncheck (emit e).
Proof. intros H s. exists [e]. auto. Qed.
Ltac uu := repeat match goal with
  | |- keeps _ (bind _ _) => apply (keeps_bind _ uncheck_trans); [|intros ?]
  | |- keeps _ (ret _) => apply keeps_ret, uncheck_refl
  | |- keeps _ (lift _) => apply keeps_lift, uncheck_refl
  | |- keeps _ (get _) => apply keeps_get, uncheck_refl
  | |- keeps _ (print_error _) => unfold print_error
  | |- keeps _ (print_text _ _) => unfold print_text
  | |- keeps _ (emit _) => apply U_emit; reflexivity
  | |- keeps _ set_errored => apply U_silent; reflexivity
  | |- keeps _ (set_cache _) => apply U_silent; reflexivity
  | |- keeps _ (set_heap _) => apply U_silent; reflexivity
  | |- keeps _ (set_dbs _) => apply U_silent; reflexivity
  | |- keeps _ (set_files _) => apply U_silent; reflexivity
  | |- keeps _ (each _ _) => apply (keeps_each _ uncheck_refl uncheck_trans); intros ? ?
  | |- keeps _ (if ?b then _ else _) => destruct b
  | |- keeps _ (match ?b with _ => _ end) => destruct b
  | H : keeps _ ?m |- keeps _ ?m => exact H
  end.
Section Pre.
Variable E : Env.
Variable O : Opts.
Lemma U_still {A} (m : M A) : keeps still m -> keeps uncheck m.
Proof. intros H s. destruct (H s) as [[n T Q _ _ _] _]. exists n. split; [exact T|]. now apply quiet_none. Qed.
Lemma U_load_loop names cs : keeps uncheck (load_loop E O cs names).
Proof. induction cs as [|c cs IH]; cbn [load_loop]; [uu|]. unfold print_load_err. uu. Qed.
Lemma U_load_cfg path : keeps uncheck (load_cfg E path).
Proof. unfold load_cfg, report_db_errs. uu. Qed.
Lemma U_find_cfg dir : keeps uncheck (find_cfg E dir).
Proof. unfold find_cfg. uu; apply U_load_cfg. Qed.
Lemma U_read_all paths cl : forall cfg, keeps uncheck (read_all E O paths cl cfg).
Proof.
  induction paths as [|p ps IH]; intros cfg; cbn [read_all]; [uu|]. destruct cl.
  - apply (keeps_bind _ uncheck_trans); [apply U_find_cfg|]. intros [e|con]; unfold alloc; uu; apply IH.
  - unfold load_at, alloc. uu; apply IH.
Qed.
Lemma U_adjust files : keeps uncheck (adjust_all E O files).
Proof. unfold adjust_all, adjust_one. uu. Qed.
Lemma U_load_databases cs names : keeps uncheck (load_databases E O cs names).
Proof. unfold load_databases. uu. apply U_load_loop. Qed.
Lemma U_find_all : keeps uncheck (find_all_lockfiles E O).
Proof. apply U_still, find_all_still. Qed.
End Pre.

Section Quiet.
Variables (w : World) (se : Semantic) (so : Sorter) (it : Iter) (co : string -> string -> string) (te : any_err -> string) (oj : OSV -> json)
  (st : string -> path_kind) (im : ParserFn -> Parser) (cs : string -> option string) (cp : string -> string) (de : string -> option raw_config)
  (en : raw_config -> string) (op : string -> bool) (ap : nat -> APIDB -> list Pkg -> res (api_err + list (list OSV))) (ve : string).
Notation E := (mkEnv w se so it co te oj st im cs cp de en op ap ve).
Variable O : Opts.
Variable no : bool.
Variable ig : list string.
Notation O' := (ignoring no ig O).
Notation like := (like_ev O O').
Notation stl := (st_like O no ig).
Hypothesis HS : SorterOk so.
Hypothesis HI : IterOk it.

(** ** states that are alike but for the order of rewriting config files *)
Definition nearly (s s' : St) : Prop := same_run O O' s s' /\ s_errored s = s_errored s'.
Lemma like_checks tr tr' : Forall2 like tr tr' -> Forall2 (same_check O O') (checks tr) (checks tr').
Proof.
  induction 1 as [|a b tr tr' H F IH]; [constructor|]. change (a :: tr) with ([a] ++ tr). change (b :: tr') with ([b] ++ tr'). rewrite !checks_app.
  apply Forall2_app; [|exact IH]. destruct H as [e H|? ? ? ? ? ? ? H|?|?|?]; [rewrite H; constructor|constructor; [exact H|constructor]|constructor|constructor|constructor].
Qed.
Lemma like_outs tr tr' : Forall2 like tr tr' -> Forall2 like (filter is_out tr) (filter is_out tr').
Proof.
  induction 1 as [|a b tr tr' H F IH]; [constructor|]. cbn [filter].
  assert (Q : is_out a = is_out b) by (destruct H; reflexivity). rewrite <- Q. destruct (is_out a); [constructor; auto|exact IH].
Qed.
Lemma stl_nearly s s' : stl s s' -> nearly s s'.
Proof.
  intros (L1 & L2 & L3 & L4 & L5 & L6). split; [|exact L2]. split; [now apply like_checks|now apply like_outs| |now rewrite L5|exact L6].
  exists (s_trace s'). auto.
Qed.
Lemma nearly_emit e e' s s' : like e e' -> nearly s s' -> nearly (snd (emit e s)) (snd (emit e' s')).
Proof.
  intros L [[A B (tr & C1 & C2 & C3) D F] G]. assert (L1 : Forall2 like [e] [e']) by (constructor; auto). split; [|exact G]. split; cbn [emit snd s_trace s_files s_cache].
  - rewrite !checks_app. apply Forall2_app; [exact A|now apply like_checks].
  - rewrite !filter_app. apply Forall2_app; [exact B|now apply like_outs].
  - exists (tr ++ [e']). split; [now apply Forall2_app|]. split; [now apply Permutation_app_tail|]. intros U. now rewrite C3.
  - exact D.
  - exact F.
Qed.
Lemma bind_ok {A B} (m : M A) (f : A -> M B) s a : fst (m s) = Ok a -> bind m f s = f a (snd (m s)).
Proof. intros H. unfold bind. destruct (m s) as [r t]. cbn in H. now subst r. Qed.
Definition parn (m m' : M unit) : Prop := forall s s', nearly s s' -> fst (m s) = Ok tt /\ fst (m' s') = Ok tt /\ nearly (snd (m s)) (snd (m' s')).
Lemma parn_bind m m' f f' : parn m m' -> parn (f tt) (f' tt) -> parn (bind m f) (bind m' f').
Proof.
  intros H K s s' N. destruct (H s s' N) as (Q1 & Q2 & Q3). unfold bind. destruct (m s) as [r t], (m' s') as [r' t']. cbn [fst snd] in *. subst r r'. now apply K.
Qed.
Lemma parn_text t : parn (print_text O t) (print_text O' t).
Proof. intros s s' N. split; [reflexivity|]. split; [reflexivity|]. apply (nearly_emit _ _ s s'); [now apply le_same|exact N]. Qed.
Lemma parn_error t : parn (print_error t) (print_error t).
Proof.
  unfold print_error. apply parn_bind.
  - intros s s' [[A B C D F] G]. split; [reflexivity|]. split; [reflexivity|]. split; [|reflexivity]. split; assumption.
  - intros s s' N. split; [reflexivity|]. split; [reflexivity|]. apply nearly_emit; [now apply le_same|exact N].
Qed.
Lemma parn_each (f f' : string -> M unit) l : (forall a, parn (f a) (f' a)) -> parn (each f l) (each f' l).
Proof. intros H. induction l as [|a l IH]; [intros s s' N; auto|]. cbn [each]. now apply parn_bind. Qed.

(** ** rewriting config files *)
Lemma entry_perm x y : entry_like x y -> fst x = fst y /\ Permutation (snd x) (snd y).
Proof. intros (H1 & H2 & H3 & H4). split; [exact H1|]. now apply NoDup_Permutation. Qed.
Notation nws := (news so de en op it).
Notation lns := (line_of so co te de en op it).
Notation evs := (evs_of so de en op it).
Notation pts := (put so de en op it).
Lemma news_like f x y : entry_like x y -> nws f x = nws f y.
Proof.
  intros L. apply entry_perm in L as [L1 L2]. unfold news. rewrite L1. f_equal. apply (sorts so HS). transitivity (snd x); [symmetry; apply HI|]. transitivity (snd y); [exact L2|apply HI].
Qed.
Lemma lines_like f x y : entry_like x y -> lns f x = lns f y.
Proof.
  intros L. unfold line_of. rewrite (news_like f x y L). apply entry_perm in L as [L1 L2]. now rewrite L1, (Permutation_length L2).
Qed.
Lemma evs_like f x y : entry_like x y -> evs f x = evs f y.
Proof. intros L. unfold evs_of. rewrite (news_like f x y L). now destruct L as [-> _]. Qed.
Lemma put_like f g x y p : entry_like x y -> pts f g x p = pts f g y p.
Proof. intros L. unfold put. rewrite (news_like f x y L). now destruct L as [-> _]. Qed.
Lemma map_like {B} (F : string * list string -> B) seen seen' : (forall x y, entry_like x y -> F x = F y) -> Forall2 entry_like seen seen' ->
  Permutation (map F (it _ seen)) (map F (it _ seen')).
Proof.
  intros H FL. transitivity (map F seen); [symmetry; apply Permutation_map, HI|]. replace (map F seen) with (map F seen'); [apply Permutation_map, HI|].
  symmetry. induction FL; cbn; [reflexivity|]. f_equal; auto.
Qed.
Lemma find_like p seen seen' : Forall2 entry_like seen seen' ->
  match find (fun x => seqb p (clean (fst x))) seen, find (fun x => seqb p (clean (fst x))) seen' with
  | Some x, Some y => entry_like x y | None, None => True | _, _ => False end.
Proof.
  induction 1 as [|x y l l' H F IH]; cbn [find]; [exact I|]. pose proof H as (Q & _). rewrite <- Q. destruct (seqb p _); [exact H|exact IH].
Qed.
Lemma write_like seen seen' : Forall2 entry_like seen seen' -> tidy seen -> tidy seen' ->
  forall s s', stl s s' -> o_update O = true ->
  fst (write_updated_configs E O seen s) = Ok tt /\ fst (write_updated_configs E O' seen' s') = Ok tt
  /\ nearly (snd (write_updated_configs E O seen s)) (snd (write_updated_configs E O' seen' s')).
Proof.
  intros FL T T' s s' L U. unfold write_updated_configs.
  assert (LEN : List.length seen = List.length seen') by (clear - FL; induction FL; cbn; auto). rewrite <- LEN.
  set (m1 := if negb _ then print_text O newline else ret tt). set (m2 := if negb _ then print_text O' newline else ret tt).
  assert (PM : par O no ig eq m1 m2) by (unfold m1, m2; destruct (negb _); [apply par_text|now apply par_ret]).
  specialize (PM s s' L).
  assert (F1 : fst (m1 s) = Ok tt) by (unfold m1; now destruct (negb _)). assert (F2 : fst (m2 s') = Ok tt) by (unfold m2; now destruct (negb _)).
  rewrite (bind_ok m1 _ _ _ F1), (bind_ok m2 _ _ _ F2).
  destruct (m1 s) as [r1 s1], (m2 s') as [r2 s1']. cbn [fst snd] in F1, F2 |- *. subst r1 r2. destruct PM as [_ L1]. clear m1 m2 s s' L. rename s1 into s, s1' into s', L1 into L.
  cbn [e_iter e_sort].
  set (k := fun x : string * list string => clean (fst x)).
  assert (T1 : NoDup (map k (it _ seen))) by (eapply Permutation_NoDup; [apply Permutation_map, HI|exact T]).
  assert (T2 : NoDup (map k (it _ seen'))) by (eapply Permutation_NoDup; [apply Permutation_map, HI|exact T']).
  destruct L as (L1 & L2 & L3 & L4 & L5 & L6).
  unfold bind at 1 2 3 4. rewrite (update_all_is w se so co te oj st im cs cp de en op ap ve it (s_files s) (it _ seen) s T1) by auto.
  rewrite (update_all_is w se so co te oj st im cs cp de en op ap ve it (s_files s) (it _ seen') s' T2) by (intros; now rewrite L5).
  rewrite (sorts so HS _ _ (map_like (lns (s_files s)) seen seen' (lines_like _) FL)).
  apply parn_each; [intros line; destruct (has_prefix line _); [apply parn_error|apply parn_text]|].
  assert (PE : Permutation (flat_map (evs (s_files s)) (it _ seen)) (flat_map (evs (s_files s)) (it _ seen'))).
  { rewrite !flat_map_concat_map. pose proof (map_like (evs (s_files s)) seen seen' (evs_like _) FL) as P. clear - P.
    induction P; cbn; auto; [now apply Permutation_app_head|rewrite !app_assoc; apply Permutation_app_tail, Permutation_app_comm|etransitivity; eauto]. }
  assert (OE : forall l, filter is_out (flat_map (evs (s_files s)) l) = []).
  { induction l as [|x l IH]; [reflexivity|]. cbn [flat_map]. rewrite filter_app, IH, app_nil_r. unfold evs_of. destruct (nws _ x); reflexivity. }
  split; [|exact L2]. split; cbn [s_trace s_files s_cache].
  - rewrite !checks_app, !(proj2 (evs_silent so de en op it _ _)), !app_nil_r. now apply like_checks.
  - rewrite !filter_app, !OE, !app_nil_r. now apply like_outs.
  - exists (s_trace s' ++ flat_map (evs (s_files s)) (it _ seen)). split; [|split; [now apply Permutation_app_head|congruence]].
    apply Forall2_app; [exact L1|]. clear. induction (it _ seen) as [|x l IH]; [constructor|]. cbn [flat_map]. apply Forall2_app; [|exact IH].
    unfold evs_of. destruct (nws _ x); repeat constructor.
  - intros p. rewrite !puts_at by assumption. change (fun x : string * list string => seqb p (clean (fst x))) with (fun x => seqb p (k x)).
    rewrite (find_perm k p _ _ (Permutation_sym (HI _ seen))), (find_perm k p _ _ (Permutation_sym (HI _ seen'))) by (try exact T1; try exact T2).
    pose proof (find_like p seen seen' FL) as X. change (fun x : string * list string => seqb p (clean (fst x))) with (fun x => seqb p (k x)) in X.
    destruct (find _ seen), (find _ seen'); try contradiction; [|now rewrite L5]. rewrite (put_like _ _ _ _ p X), L5. reflexivity.
  - exact L6.
Qed.

(** ** whole runs *)
Definition code_like (er : bool) (c c' : Z) : Prop :=
  quieter O O' -> c = c' \/ c = 1%Z /\ (er = false /\ c' = 0%Z \/ er = true /\ c' = 127%Z).
Definition fin (x x' : res Z * St) : Prop :=
  nearly (snd x) (snd x') /\
  match fst x, fst x' with Ok c, Ok c' => code_like (s_errored (snd x)) c c' | Panic, Panic => True | _, _ => False end.
Definition inv (s : St) : Prop := checks (s_trace s) = [] /\ heap_ok s.
Lemma fin_same x : inv (snd x) -> fin x x.
Proof.
  intros [C _]. split; [apply stl_nearly; now apply st_like_refl|]. destruct (fst x); [|exact I]. intros _. now left.
Qed.
Lemma inv_step {A} (m : M A) (Q : A -> Prop) s r s' : keeps uncheck m -> gives m Q -> inv s -> m s = (r, s') -> inv s' /\ match r with Ok a => Q a | Panic => True end.
Proof.
  intros K G [I1 I2] H. pose proof (keeps_at _ _ _ _ _ K H) as (n & T & C). destruct (G s I2) as [G1 G2]. rewrite H in G1, G2. cbn [fst snd] in *.
  split; [|exact G2]. split; [|exact G1]. now rewrite T, checks_app, I1, C.
Qed.
Lemma fin_bind {A} (m : M A) (f f' : A -> M Z) (Q : A -> Prop) s : keeps uncheck m -> gives m Q -> inv s ->
  (forall a s1, Q a -> inv s1 -> fin (f a s1) (f' a s1)) -> fin (bind m f s) (bind m f' s).
Proof.
  intros K G I H. unfold bind. destruct (m s) as [r s1] eqn:M. destruct (inv_step m Q s r s1 K G I M) as [I1 Qa]. destruct r as [a|]; [now apply H|].
  now apply fin_same.
Qed.
Lemma fin_files paths cl cfg s : inv s -> fin (run_files E O paths cl cfg s) (run_files E O' paths cl cfg s).
Proof.
  intros I. unfold run_files.
  change (read_all E O' paths cl cfg) with (read_all E O paths cl cfg). eapply fin_bind; [apply U_read_all|apply gives_read|exact I|]. intros files s1 _ I1.
  change (adjust_all E O' files) with (adjust_all E O files). eapply fin_bind; [apply U_adjust|apply gives_adjust|exact I1|]. intros _ s2 _ I2.
  eapply fin_bind; [uu|apply gives_get|exact I2|]. intros h s3 _ I3.
  change (load_databases E O') with (load_databases E O). eapply fin_bind; [apply U_load_databases|apply gives_load|exact I3|]. intros x s4 _ I4.
  eapply fin_bind; [uu|now apply gives_any|exact I4|]. intros _ s5 _ I5. clear - HS HI I5.
  pose proof (par_check_files E O no ig files 0 (if snd x : bool then 127%Z else 0%Z) (if snd x : bool then 127%Z else 0%Z) [] []
    (fun _ => or_introl eq_refl) (Forall2_nil _) s5 s5 (st_like_refl O no ig s5 (proj1 I5))) as P.
  pose proof (gives_check_files O E files 0 (if snd x : bool then 127%Z else 0%Z) [] (conj (NoDup_nil _) (Forall_nil _)) s5 (proj2 I5)) as [_ G].
  pose proof (gives_check_files O' E files 0 (if snd x : bool then 127%Z else 0%Z) [] (conj (NoDup_nil _) (Forall_nil _)) s5 (proj2 I5)) as [_ G'].
  unfold bind at 1 4. destruct (check_files E O files 0 _ [] s5) as [[y|] s6], (check_files E O' files 0 _ [] s5) as [[y'|] s6']; try contradiction.
  2:{ split; [now apply stl_nearly|exact Logic.I]. }
  cbn [fst snd] in G, G'. destruct P as [[P1 P2] P3].
  assert (AF : forall (er : bool), code_like er (if er && Z.eqb (fst y) 0 then 127%Z else fst y) (if er && Z.eqb (fst y') 0 then 127%Z else fst y')).
  { intros er Qq. destruct (P1 Qq) as [->|[-> ->]]; [now left|]. destruct er; cbn; auto. }
  change (o_update O') with (o_update O). destruct (o_update O) eqn:U.
  - destruct (write_like _ _ P2 (seen_tidy _ G) (seen_tidy _ G') s6 s6' P3 U) as (W1 & W2 & W3). unfold bind.
    destruct (write_updated_configs E O _ s6) as [r t], (write_updated_configs E O' _ s6') as [r' t']. cbn [fst snd] in *. subst r r'. cbn [get ret].
    destruct W3 as [W3 W4]. split; [split; assumption|]. cbn [fst snd]. rewrite <- W4. apply AF.
  - cbn [bind ret get]. apply stl_nearly in P3 as [W3 W4]. split; [split; assumption|]. cbn [fst snd]. rewrite <- W4. apply AF.
Qed.
Lemma fin_body s : inv s -> fin (run_body E O s) (run_body E O' s).
Proof.
  intros I. unfold run_body. cbn [o_version o_list_eco o_parse_as o_args ignoring]. 
  assert (SM : forall m : M Z, keeps uncheck m -> gives m (fun _ => True) -> fin (m s) (m s)).
  { intros m K G. apply fin_same. destruct (m s) as [r s1] eqn:Q. now apply (inv_step m _ s r s1 K G I). }
  change (print_text O') with (print_text O). replace (print_known_ecosystems O') with (print_known_ecosystems O) by (unfold print_known_ecosystems; generalize known_ecosystems; reflexivity).
  destruct (o_version O).
  { apply SM; [uu|now apply gives_any]. }
  destruct (o_list_eco O).
  { apply SM; unfold print_known_ecosystems; generalize known_ecosystems; intros ke; [uu|].
    eapply gives_bind; [|intros; now apply gives_ret]. eapply gives_bind; [apply gives_text|]. intros _ _. apply gives_each. intros; apply gives_text. }
  destruct (negb (known_parse_as _)).
  { generalize (list_parsers (e_sort E) (e_iter E)). intros lp. apply SM; [uu|]. repeat (eapply gives_bind; [first [apply gives_error|apply gives_each; intros; apply gives_error]|intros ? _]). now apply gives_ret. }
  change (find_all_lockfiles E O') with (find_all_lockfiles E O).
  eapply (fin_bind _ _ _ (fun _ => True)); [apply U_find_all| |exact I|].
  { intros s0 P. pose proof (keeps_at _ _ s0 (fst (find_all_lockfiles E O s0)) (snd (find_all_lockfiles E O s0)) (find_all_still E O) (surjective_pairing _)) as X.
    split; [|now destruct (fst (find_all_lockfiles E O s0))]. destruct X as [[n T Q Hh Hf Hr] _]. unfold heap_ok. now rewrite Hh. }
  intros x s1 _ I1. clear SM. destruct (Nat.eqb _ 0).
  { apply fin_same. eapply (inv_step (bind (print_error _) (fun _ => ret _)) (fun _ => True)); [|  |exact I1|apply surjective_pairing]; [uu|].
    eapply gives_bind; [apply gives_error|]. intros; now apply gives_ret. }
  unfold run_config. cbn [o_no_config o_list_pkgs o_config ignoring].
  assert (AL : forall c s2, plain_path c -> inv s2 -> forall cl, fin (bind (alloc c) (fun cfg => run_files E O (fst x) cl cfg) s2) (bind (alloc c) (fun cfg => run_files E O' (fst x) cl cfg) s2)).
  { intros c s2 PC I2 cl. eapply fin_bind; [unfold alloc; uu|now apply gives_alloc|exact I2|]. intros cfg s3 _ I3. now apply fin_files. }
  assert (EC : plain_path empty_config) by now right.
  destruct (o_list_pkgs O); [now apply AL|]. destruct (_ && _); [|now apply AL].
  eapply fin_bind; [apply U_load_cfg|apply gives_load_cfg|exact I1|]. intros [e|con] s2 C I2.
  - apply fin_same. eapply (inv_step (bind (print_error _) (fun _ => ret _)) (fun _ => True)); [| |exact I2|apply surjective_pairing]; [uu|].
    eapply gives_bind; [apply gives_error|]. intros; now apply gives_ret.
  - now apply AL.
Qed.
Lemma fin_run fs cache : fin (run E O (start fs cache)) (run E O' (start fs cache)).
Proof.
  assert (I : inv (start fs cache)) by (split; [reflexivity|constructor]).
  pose proof (fin_body _ I) as [N C]. unfold run. change (o_json O') with (o_json O).
  destruct (run_body E O (start fs cache)) as [r s1], (run_body E O' (start fs cache)) as [r' s1']. cbn [fst snd] in N, C.
  destruct (o_json O) eqn:J; [|split; assumption]. cbn [print_json_results bind get]. split; [|exact C]. cbn [snd].
  exact (nearly_emit _ _ s1 s1' (le_doc _ _ _ _ J) N).
Qed.
End Quiet.

Lemma runs_alike E O no ig fs cache : SorterOk (e_sort E) -> IterOk (e_iter E) ->
  fin O no ig (run E O (start fs cache)) (run E (ignoring no ig O) (start fs cache)).
Proof. intros HS HI. destruct E. now apply fin_run. Qed.
Lemma run_same_run E O no ig fs cache r s r' s' : SorterOk (e_sort E) -> IterOk (e_iter E) ->
  run E O (start fs cache) = (r, s) -> run E (ignoring no ig O) (start fs cache) = (r', s') ->
  same_run O (ignoring no ig O) s s' /\ (r = Panic <-> r' = Panic).
Proof.
  intros HS HI H H'. pose proof (runs_alike E O no ig fs cache HS HI) as [[N _] C]. rewrite H, H' in *. cbn [fst snd] in *. split; [exact N|].
  destruct r, r'; try contradiction; split; intros; congruence.
Qed.
Lemma run_codes E O no ig fs cache c s c' s' : SorterOk (e_sort E) -> IterOk (e_iter E) -> quieter O (ignoring no ig O) ->
  run E O (start fs cache) = (Ok c, s) -> run E (ignoring no ig O) (start fs cache) = (Ok c', s') ->
  c = c' \/ c = 1%Z /\ (messages KErr (s_trace s) = [] /\ c' = 0%Z \/ messages KErr (s_trace s) <> [] /\ c' = 127%Z).
Proof.
  intros HS HI Q H H'. pose proof (runs_alike E O no ig fs cache HS HI) as [_ C]. rewrite H, H' in C. cbn [fst snd] in C. destruct (C Q) as [->|[-> X]]; [now left|right].
  split; [reflexivity|]. pose proof H as HT. apply run_split in HT as (s1 & HB & Hs).
  assert (ER : s_errored s = true <-> messages KErr (s_trace s) <> []).
  { assert (G : grows (fun _ => True) (start fs cache) (snd (run_body E O (start fs cache)))) by (apply run_body_grows; auto).
    rewrite HB in G. destruct G as [n T' _ Er]. cbn in T', Er. pose proof H as HT. apply run_trace in HT as (s2 & HB2 & T & _). rewrite HB in HB2. injection HB2 as <-.
    assert (SE : s_errored s = s_errored s1) by (rewrite Hs; now destruct (o_json O)).
    rewrite T, messages_app, doc_errors, app_nil_r, SE, T', <- err_messages, Er. reflexivity. }
  destruct X as [[E1 ->]|[E1 ->]].
  - left. split; [|reflexivity]. destruct (messages KErr (s_trace s)) eqn:K; [reflexivity|]. assert (s_errored s = true) by (apply ER; discriminate). congruence.
  - right. split; [now apply ER|reflexivity].
Qed.
Lemma forall2_impl {A B} (P Q : A -> B -> Prop) l l' : (forall a b, P a b -> Q a b) -> Forall2 P l l' -> Forall2 Q l l'.
Proof. intros H. induction 1; constructor; auto. Qed.
Lemma run_rows E O no ig fs cache r s r' s' : SorterOk (e_sort E) -> IterOk (e_iter E) -> quieter O (ignoring no ig O) ->
  run E O (start fs cache) = (r, s) -> run E (ignoring no ig O) (start fs cache) = (r', s') ->
  Forall2 (fun ck ck' => incl (ck_ignores ck) (ck_ignores ck')
    /\ Forall2 (quieter_row (ck_ignores ck) (ck_ignores ck')) (rp_pkgs (ck_report ck)) (rp_pkgs (ck_report ck'))) (checks (s_trace s)) (checks (s_trace s')).
Proof.
  intros HS HI [Q1 Q2] H H'. destruct (run_same_run E O no ig fs cache r s r' s' HS HI H H') as [[C _ _ _ _] _].
  eapply forall2_impl; [|exact C]. intros ck ck' (_ & _ & _ & (own & own' & A1 & A2 & A3 & A4 & A5) & _ & F).
  assert (I : incl (ck_ignores ck) (ck_ignores ck')).
  { rewrite A1, A2. apply incl_app; [|now apply incl_appr]. cbn [o_no_ignores o_ignores ignoring] in *. destruct (o_no_ignores O) eqn:N; [rewrite A4 by reflexivity; apply incl_nil_l|].
    destruct no; [now specialize (Q1 eq_refl)|]. rewrite A3 by reflexivity. now apply incl_appl. }
  split; [exact I|]. eapply forall2_impl; [|exact F]. intros a b. now apply quieter_rows.
Qed.
