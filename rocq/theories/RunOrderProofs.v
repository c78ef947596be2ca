From Coq Require Import Permutation.
From Verif Require Import GoStr GoStrFacts GoMap GoSort GoSortFacts Types Osv MemDB Path PathFacts PkgMap MemDBProofs Api ZipDB DirDB DbConfig Configer Lockfile LockfileSpec LockfileProofs Json Report Main MainSpec MainTrace MainProofs RunProofs RunOrderSpec.

(** ** the filter by name *)
Lemma mem_perm x n n' : Permutation n n' -> mem x n = mem x n'.
Proof. intros P. apply Bool.eq_iff_eq_true. rewrite !GoStrFacts.mem_iff. split; apply Permutation_in; [exact P|now symmetry]. Qed.
Lemma add_perm db o n n' : Permutation n n' -> add_vulnerability db o n = add_vulnerability db o n'.
Proof.
  intros P. unfold add_vulnerability. rewrite (Permutation_length P). replace (might_affect_packages o n') with (might_affect_packages o n); [reflexivity|].
  unfold might_affect_packages. induction (o_affected o) as [|a l IH]; [reflexivity|]. cbn [existsb]. now rewrite IH, (mem_perm _ _ _ P).
Qed.
Lemma zip_perm un dec url wd off n n' file ans : Permutation n n' -> zip_load un dec url wd off n file ans = zip_load un dec url wd off n' file ans.
Proof.
  intros P. unfold zip_load. destruct (f_result _) as [[e|[body date]]|]; cbn [rbind]; try reflexivity. destruct (un body) as [entries|]; [|reflexivity].
  replace (fold_left (zip_entry dec n' wd) entries empty_db) with (fold_left (zip_entry dec n wd) entries empty_db); [reflexivity|].
  generalize empty_db. induction entries as [|e es IH]; intros db; [reflexivity|]. cbn [fold_left]. rewrite IH. f_equal.
  unfold zip_entry, load_zip_file. repeat match goal with |- context [if ?b then _ else _] => destruct b end; try reflexivity.
  all: destruct (snd e); try reflexivity; destruct (dec _) as [o b]; destruct b; try reflexivity; now apply add_perm.
Qed.
Lemma dir_perm dec pu fs url wd n n' : Permutation n n' -> dir_load dec pu fs url wd n = dir_load dec pu fs url wd n'.
Proof.
  intros P. unfold dir_load. destruct (negb _); [reflexivity|]. destruct (pu url) as [u|]; [|reflexivity].
  match goal with |- context [dir_visits dec n empty_db ?l] => replace (dir_visits dec n' empty_db l) with (dir_visits dec n empty_db l); [reflexivity|]; generalize l end.
  intros l. generalize empty_db. induction l as [|c l IH]; intros db; [reflexivity|]. cbn [dir_visits].
  replace (dir_visit dec n' db c) with (dir_visit dec n db c); [destruct (dir_visit dec n db c); auto|].
  unfold dir_visit. destruct (w_info c) as [|content|[]]; try reflexivity; destruct (negb _); try reflexivity.
  destruct content; [|reflexivity]. destruct (dec _) as [o []]; [reflexivity|]. f_equal. now apply add_perm.
Qed.
Lemma load_perm W cache c off b n n' : Permutation n n' -> load_db W cache c off b n = load_db W cache c off b n'.
Proof. intros P. unfold load_db. now rewrite (zip_perm _ _ _ _ _ n n' _ _ P), (dir_perm _ _ _ _ _ n n' P). Qed.

(** ** equal code *)
Definition same {A} (m m' : M A) : Prop := forall s, m s = m' s.
Lemma same_refl {A} (m : M A) : same m m. Proof. intros s. reflexivity. Qed.
Lemma same_bind {A B} (m m' : M A) (f f' : A -> M B) : same m m' -> (forall a, same (f a) (f' a)) -> same (bind m f) (bind m' f').
Proof. intros H K s. unfold bind. rewrite H. destruct (m' s) as [[a|] s']; [apply K|reflexivity]. Qed.
Lemma same_each {A} (f f' : A -> M unit) l : (forall a, same (f a) (f' a)) -> same (each f l) (each f' l).
Proof. intros H. induction l as [|a l IH]; [apply same_refl|]. cbn [each]. apply same_bind; auto. Qed.

Section Two.
Variables (w : World) (se : Semantic) (so : Sorter) (i1 i2 : Iter) (co : string -> string -> string) (te : any_err -> string) (oj : OSV -> json)
  (st : string -> path_kind) (im : ParserFn -> Parser) (cs : string -> option string) (cp : string -> string) (de : string -> option raw_config)
  (en : raw_config -> string) (op : string -> bool) (ap : nat -> APIDB -> list Pkg -> res (api_err + list (list OSV))) (ve : string).
Notation E1 := (mkEnv w se so i1 co te oj st im cs cp de en op ap ve).
Notation E2 := (mkEnv w se so i2 co te oj st im cs cp de en op ap ve).
Variable O : Opts.
Hypothesis HS : SorterOk so.
Hypothesis H1 : IterOk i1.
Hypothesis H2 : IterOk i2.
Lemma iters {A} (l : list A) : Permutation (i1 A l) (i2 A l).
Proof. transitivity l; [symmetry; apply H1|apply H2]. Qed.
Lemma sorts l l' : Permutation l l' -> so _ str_ltb l = so _ str_ltb l'.
Proof. intros P. apply sorter_unique; auto; [exact str_ltb_swo|]. intros a b A B. now apply str_ltb_total. Qed.
Lemma collect_same files : collect_ecosystems E1 files = collect_ecosystems E2 files.
Proof.
  unfold collect_ecosystems. generalize (@nil string). induction files as [|f fs IH]; intros acc; [reflexivity|]. cbn [fold_left]. rewrite IH. f_equal.
  destruct (l_err f); [reflexivity|]. cbn [e_sort e_iter]. now rewrite (ecosystems_order_free so i1 so i2 _ _ HS H1 HS H2 (Permutation_refl _)).
Qed.
Lemma adjust_same files : same (adjust_all E1 O files) (adjust_all E2 O files).
Proof. apply same_each. intros f. unfold adjust_one. rewrite collect_same. apply same_refl. Qed.
Lemma load_loop_same n n' : Permutation n n' -> forall l, same (load_loop E1 O l n) (load_loop E2 O l n').
Proof.
  intros P. induction l as [|c l IH]; [apply same_refl|]. cbn [load_loop]. apply same_bind; [apply same_refl|]. intros _. apply same_bind; [apply same_refl|]. intros _.
  apply same_bind; [apply same_refl|]. intros cache. cbn [e_world e_cache_path]. rewrite (load_perm w _ c _ _ n n' P). destruct (load_db _ _ _ _ _ n') as [[r wr] reqs].
  apply same_bind; [apply same_refl|]. intros _. apply same_bind; [apply same_refl|]. intros _. apply same_bind; [apply same_refl|]. intros [e|db].
  - apply same_bind; [apply same_refl|]. intros _. apply same_bind; [apply same_refl|]. intros _. apply same_bind; [exact IH|]. intros y. apply same_refl.
  - apply same_bind; [apply same_refl|]. intros _. apply same_bind; [exact IH|]. intros y. apply same_refl.
Qed.
Lemma load_same n n' l : Permutation n n' -> same (load_databases E1 O l n) (load_databases E2 O l n').
Proof.
  intros P. unfold load_databases. destruct (o_list_pkgs O); [apply same_refl|]. apply same_bind; [apply same_refl|]. intros _. apply same_bind; [now apply load_loop_same|]. intros r. apply same_refl.
Qed.
(** everything before config files are rewritten *)
Definition before (E : Env) (paths : list string) (check_local : bool) (config : nat) : M (Z * list (string * list string)) :=
  files <- read_all E O paths check_local config ;
  adjust_all E O files ;;
  h <- get s_heap ;
  x <- load_databases E O (unique_db_configs (map cf_dbs (get_configs h files))) (all_names E files) ;
  set_dbs (fst x) ;;
  check_files E O files 0 (if snd x : bool then 127%Z else 0%Z) [].
Definition after (E : Env) (y : Z * list (string * list string)) : M Z :=
  (if o_update O then write_updated_configs E O (snd y) else ret tt) ;;
  errored <- get s_errored ;
  ret (if errored && Z.eqb (fst y) 0 then 127%Z else fst y).
Lemma bind_assoc {A B C} (m : M A) (f : A -> M B) (g : B -> M C) : same (bind (bind m f) g) (bind m (fun a => bind (f a) g)).
Proof. intros s. unfold bind. destruct (m s) as [[a|] s']; [|reflexivity]. destruct (f a s') as [[b|] s2]; reflexivity. Qed.
Lemma same_trans {A} (a b c : M A) : same a b -> same b c -> same a c. Proof. intros X Y s. now rewrite X. Qed.
Lemma same_sym {A} (a b : M A) : same a b -> same b a. Proof. intros X s. now rewrite X. Qed.
Lemma split_run E paths cl cfg : same (run_files E O paths cl cfg) (bind (before E paths cl cfg) (after E)).
Proof.
  unfold run_files, before. apply same_sym. do 5 (eapply same_trans; [apply bind_assoc|]; apply same_bind; [apply same_refl|]; intros ?). apply same_refl.
Qed.
Lemma before_same paths cl cfg : same (before E1 paths cl cfg) (before E2 paths cl cfg).
Proof.
  unfold before. apply same_bind; [apply same_refl|]. intros files. apply same_bind; [apply adjust_same|]. intros _. apply same_bind; [apply same_refl|]. intros h.
  apply same_bind; [apply load_same, iters|]. intros x. apply same_refl.
Qed.
Lemma body_same : (forall y, same (after E1 y) (after E2 y)) -> same (run_body E1 O) (run_body E2 O).
Proof.
  intros A. assert (RF : forall paths cl cfg, same (run_files E1 O paths cl cfg) (run_files E2 O paths cl cfg)).
  { intros. eapply same_trans; [apply split_run|]. eapply same_trans; [|apply same_sym, split_run]. apply same_bind; [apply before_same|exact A]. }
  unfold run_body. destruct (o_version O); [apply same_refl|]. destruct (o_list_eco O); [apply same_refl|]. destruct (negb _).
  { apply same_bind; [apply same_refl|]. intros _. apply same_bind; [|intros _; apply same_refl]. cbn [e_sort e_iter]. rewrite !list_parsers_all by assumption. apply same_refl. }
  apply same_bind; [apply same_refl|]. intros x. destruct (Nat.eqb _ 0); [apply same_refl|]. unfold run_config.
  destruct (o_list_pkgs O); [apply same_bind; [apply same_refl|intros cfg; apply RF]|].
  destruct (_ && _); [|apply same_bind; [apply same_refl|intros cfg; apply RF]].
  apply same_bind; [apply same_refl|]. intros [e|con]; [apply same_refl|]. apply same_bind; [apply same_refl|intros cfg; apply RF].
Qed.
Theorem run_same s : o_update O = false -> run E1 O s = run E2 O s.
Proof.
  intros U. unfold run. rewrite body_same; [|intros y; unfold after; rewrite U; apply same_refl].
  destruct (run_body E2 O s) as [r s1]. destruct (o_json O); reflexivity.
Qed.

(** ** rewriting config files *)
Notation entry := (string * list string)%type.
Section Rewrite.
Variable it : Iter.
Notation E := (mkEnv w se so it co te oj st im cs cp de en op ap ve).
Definition news (f : string -> fread) (x : entry) : upd_err + string :=
  update_with_ignores de en f op (fst x) (so _ str_ltb (it _ (snd x))).
Definition line_of (f : string -> fread) (x : entry) : string :=
  match news f x with
  | inr _ => "Updated " +s+ co "magenta" (fst x) +s+ " with " +s+ dec_of_nat (List.length (snd x)) +s+ " "
             +s+ form (List.length (snd x)) "vulnerability" "vulnerabilities" +s+ newline
  | inl e => "Error updating config: " +s+ te (AUpdate e)
  end.
Definition evs_of (f : string -> fread) (x : entry) : list ev :=
  EReadConfig (clean (fst x)) :: match news f x with inr c => [EWriteConfig (fst x) c] | inl _ => [] end.
Definition put (f : string -> fread) (g : string -> fread) (x : entry) : string -> fread :=
  match news f x with inr c => fun p => if seqb p (clean (fst x)) then FOk c else g p | inl _ => g end.
Lemma news_ext f g x : f (clean (fst x)) = g (clean (fst x)) -> news f x = news g x.
Proof. intros H. unfold news, update_with_ignores, load_raw. cbv zeta. now rewrite H. Qed.
Lemma put_other f g x p : p <> clean (fst x) -> put f g x p = g p.
Proof. intros N. unfold put. destruct (news f x); [reflexivity|]. now apply seqb_neq in N as ->. Qed.
Lemma update_all_is f : forall l s, NoDup (map (fun x => clean (fst x)) l) -> (forall x, In x l -> s_files s (clean (fst x)) = f (clean (fst x))) ->
  update_all E l s = (Ok (map (line_of f) l),
    mkSt (s_trace s ++ flat_map (evs_of f) l) (s_errored s) (s_results s) (s_heap s) (s_dbs s) (fold_left (put f) l (s_files s)) (s_cache s)).
Proof.
  induction l as [|x l IH]; intros s N F.
  - cbn. rewrite app_nil_r. now destruct s.
  - cbn [map] in N. inversion N as [|? ? N1 N2]; subst.
    assert (U : update_one E x s = (Ok (line_of f x),
      mkSt (s_trace s ++ evs_of f x) (s_errored s) (s_results s) (s_heap s) (s_dbs s) (put f (s_files s) x) (s_cache s))).
    { destruct x as [p v]. assert (Q : update_with_ignores de en (s_files s) op p (so string str_ltb (it string v)) = news f (p, v)).
      { change (news (s_files s) (p, v) = news f (p, v)). apply news_ext. apply (F (p, v)). now left. }
      unfold update_one, bind, get, emit. cbn [s_trace s_errored s_results s_heap s_dbs s_files s_cache e_sort e_iter e_dec_yaml e_enc_yaml e_openable e_col e_text].
      rewrite Q. unfold line_of, evs_of, put. destruct (news f (p, v)) as [e|c]; cbn; [reflexivity|]. now rewrite <- app_assoc. }
    cbn [update_all]. unfold bind at 1. rewrite U. unfold bind at 1. rewrite IH; [|exact N2|].
    + cbn. now rewrite <- app_assoc.
    + intros y Y. cbn [s_files]. rewrite put_other; [apply F; now right|]. intros Q. apply N1. apply in_map_iff. exists y. auto.
Qed.
End Rewrite.
Lemma news_same f x : news i1 f x = news i2 f x.
Proof. unfold news. now rewrite (sorts _ _ (iters (snd x))). Qed.
Lemma line_same f x : line_of i1 f x = line_of i2 f x. Proof. unfold line_of. now rewrite news_same. Qed.
Lemma evs_same f x : evs_of i1 f x = evs_of i2 f x. Proof. unfold evs_of. now rewrite news_same. Qed.
Lemma put_same f g x : put i1 f g x = put i2 f g x. Proof. unfold put. now rewrite news_same. Qed.
Lemma puts_at it f : forall l g p, NoDup (map (fun x => clean (fst x)) l) ->
  fold_left (put it f) l g p = match find (fun x => seqb p (clean (fst x))) l with Some x => put it f g x p | None => g p end.
Proof.
  induction l as [|x l IH]; intros g p N; [reflexivity|]. cbn [fold_left find]. cbn [map] in N. inversion N as [|? ? N1 N2]; subst. rewrite IH by exact N2.
  destruct (seqb_spec p (clean (fst x))) as [->|D].
  - destruct (find _ l) as [y|] eqn:Fd; [|reflexivity]. apply find_some in Fd as [Y1 Y2]. apply seqb_eq in Y2. elim N1. apply in_map_iff. exists y. auto.
  - destruct (find _ l) as [y|]; [|now apply put_other]. unfold put at 1 3. destruct (news it f y); [now apply put_other|]. destruct (seqb p _); [reflexivity|now apply put_other].
Qed.
Lemma find_perm {A} (k : A -> string) p l l' : Permutation l l' -> NoDup (map k l) -> find (fun x => seqb p (k x)) l = find (fun x => seqb p (k x)) l'.
Proof.
  intros P N. assert (N' : NoDup (map k l')) by (eapply Permutation_NoDup; [apply Permutation_map; exact P|exact N]).
  assert (X : forall m, NoDup (map k m) -> forall x, In x m -> k x = p -> find (fun x => seqb p (k x)) m = Some x).
  { clear. induction m as [|a m IH]; intros N x I K; [destruct I|]. cbn [find]. cbn [map] in N. inversion N as [|? ? N1 N2]; subst. destruct I as [->|I]; [now rewrite seqb_refl|].
    destruct (seqb_spec (k x) (k a)) as [Q|_]; [|now apply IH]. elim N1. rewrite <- Q. now apply in_map. }
  destruct (find _ l) as [x|] eqn:F1.
  - apply find_some in F1 as [F1 Q]. apply seqb_eq in Q. symmetry. apply X; auto. eapply Permutation_in; eauto.
  - destruct (find _ l') as [x|] eqn:F2; [|reflexivity]. apply find_some in F2 as [F2 Q]. apply seqb_eq in Q.
    rewrite (X l N x) in F1; [discriminate| |auto]. eapply Permutation_in; [symmetry; exact P|exact F2].
Qed.
Lemma flat_perm {A B} (f : A -> list B) l l' : Permutation l l' -> Permutation (flat_map f l) (flat_map f l').
Proof. induction 1; cbn; auto; [now apply Permutation_app_head|rewrite !app_assoc; apply Permutation_app_tail, Permutation_app_comm|etransitivity; eauto]. Qed.
Lemma outs_app a b : outs (a ++ b) = outs a ++ outs b. Proof. apply flat_map_app. Qed.
Lemma evs_silent it f l : outs (flat_map (evs_of it f) l) = [] /\ checks (flat_map (evs_of it f) l) = [].
Proof.
  induction l as [|x l [I1 I2]]; [split; reflexivity|]. cbn [flat_map]. rewrite outs_app, checks_app, I1, I2. unfold evs_of. destruct (news it f x); split; reflexivity.
Qed.
(** states that differ in what order config files were rewritten *)
Definition near (s s' : St) : Prop := same_end s s' /\ s_errored s = s_errored s' /\ s_results s = s_results s'.
Lemma near_refl s : near s s. Proof. repeat split; auto. Qed.
Lemma near_emit e s s' : near s s' -> near (snd (emit e s)) (snd (emit e s')).
Proof. intros [[A B C D F] [G H]]. repeat split; cbn; auto; [rewrite !outs_app; congruence|now apply Permutation_app_tail|rewrite !checks_app; congruence]. Qed.
Definition nears {A} (m m' : M A) : Prop := forall s s', near s s' -> fst (m s) = fst (m' s') /\ near (snd (m s)) (snd (m' s')).
Lemma nears_bind {A B} (m m' : M A) (f f' : A -> M B) : nears m m' -> (forall a, nears (f a) (f' a)) -> nears (bind m f) (bind m' f').
Proof.
  intros H K s s' N. destruct (H s s' N) as [Q1 Q2]. unfold bind. destruct (m s) as [r1 t1], (m' s') as [r2 t2]. cbn in Q1, Q2. subst r2. destruct r1 as [a|]; [now apply K|auto].
Qed.
Lemma nears_ret {A} (a : A) : nears (ret a) (ret a). Proof. intros s s' N. auto. Qed.
Lemma nears_each {A} (f f' : A -> M unit) l : (forall a, nears (f a) (f' a)) -> nears (each f l) (each f' l).
Proof. intros H. induction l as [|a l IH]; [apply nears_ret|]. cbn [each]. apply nears_bind; auto. Qed.
Lemma nears_emit e : nears (emit e) (emit e). Proof. intros s s' N. split; [reflexivity|now apply near_emit]. Qed.
Lemma nears_error t : nears (print_error t) (print_error t).
Proof. apply nears_bind; [|intros _; apply nears_emit]. intros s s' [[A B C D F] [G H]]. split; [reflexivity|]. repeat split; auto. Qed.
Lemma nears_text t : nears (print_text O t) (print_text O t). Proof. apply nears_emit. Qed.
Definition tidy (seen : list entry) : Prop := NoDup (map (fun x => clean (fst x)) seen).
Lemma updates_near seen s s' : tidy seen -> near s s' ->
  exists l1 l2, Permutation l1 l2 /\ fst (update_all E1 (i1 _ seen) s) = Ok l1 /\ fst (update_all E2 (i2 _ seen) s') = Ok l2
    /\ near (snd (update_all E1 (i1 _ seen) s)) (snd (update_all E2 (i2 _ seen) s')).
Proof.
  intros T [[A B C D F] [G H]]. set (k := fun x : entry => clean (fst x)).
  assert (T1 : NoDup (map k (i1 _ seen))) by (eapply Permutation_NoDup; [apply Permutation_map, H1|exact T]).
  assert (T2 : NoDup (map k (i2 _ seen))) by (eapply Permutation_NoDup; [apply Permutation_map, H2|exact T]).
  rewrite (update_all_is i1 (s_files s)) by auto. rewrite (update_all_is i2 (s_files s)) by (auto; intros x _; now rewrite D). cbn [fst snd].
  exists (map (line_of i1 (s_files s)) (i1 _ seen)), (map (line_of i2 (s_files s)) (i2 _ seen)).
  split; [rewrite (map_ext _ _ (line_same (s_files s))); apply Permutation_map, iters|]. split; [reflexivity|]. split; [reflexivity|].
  rewrite (flat_map_ext _ _ (evs_same (s_files s)) (i1 _ seen)).
  split; [|auto]. split; cbn [s_trace s_errored s_results s_heap s_dbs s_files s_cache].
  - rewrite !outs_app, !(proj1 (evs_silent i2 _ _)), !app_nil_r. exact A.
  - apply Permutation_app; [exact B|]. apply flat_perm, iters.
  - rewrite !checks_app, !(proj2 (evs_silent i2 _ _)), !app_nil_r. exact C.
  - intros p. rewrite (puts_at i1), (puts_at i2) by assumption.
    change (fun x : entry => seqb p (clean (fst x))) with (fun x => seqb p (k x)). rewrite (find_perm k p _ _ (iters seen) T1). destruct (find _ (i2 _ seen)) as [x|]; [|apply D].
    unfold put. rewrite news_same. destruct (news i2 (s_files s) x); [apply D|]. destruct (seqb p _); [reflexivity|apply D].
  - exact F.
Qed.
Lemma write_near seen : tidy seen -> nears (write_updated_configs E1 O seen) (write_updated_configs E2 O seen).
Proof.
  intros T. unfold write_updated_configs. apply nears_bind; [destruct (negb _); [apply nears_text|apply nears_ret]|]. intros _ s s' N.
  destruct (updates_near seen s s' T N) as (l1 & l2 & P & Q1 & Q2 & Q3).
  assert (B : forall (m : M (list string)) (f : list string -> M unit) x l, fst (m x) = Ok l -> bind m f x = f l (snd (m x))).
  { intros m f x l Q. unfold bind. destruct (m x) as [r t]. cbn in Q. now subst r. }
  cbn [e_iter]. rewrite (B _ _ _ _ Q1), (B _ _ _ _ Q2). cbn [e_sort]. rewrite (sorts _ _ P).
  refine (nears_each _ _ _ _ _ _ Q3). intros line. destruct (has_prefix line _); [apply nears_error|apply nears_text].
Qed.
Lemma after_near y : tidy (snd y) -> nears (after E1 y) (after E2 y).
Proof.
  intros T. unfold after. apply nears_bind; [destruct (o_update O); [now apply write_near|apply nears_ret]|]. intros _.
  apply nears_bind; [|intros er; apply nears_ret]. intros s s' N. split; [|exact N]. cbn. f_equal. apply N.
Qed.
(** ** the config files to rewrite are different files *)
Definition plain_path (c : Config) : Prop := clean (cf_path c) = cf_path c \/ cf_path c = "".
Definition heap_ok (s : St) : Prop := Forall plain_path (s_heap s).
Definition gives {A} (m : M A) (Q : A -> Prop) : Prop :=
  forall s, heap_ok s -> heap_ok (snd (m s)) /\ match fst (m s) with Ok a => Q a | Panic => True end.
Lemma gives_bind {A B} (m : M A) (f : A -> M B) Q Q' : gives m Q -> (forall a, Q a -> gives (f a) Q') -> gives (bind m f) Q'.
Proof.
  intros H K s P. destruct (H s P) as [A1 A2]. unfold bind. destruct (m s) as [[a|] s']; cbn [fst snd] in *; [now apply K|auto].
Qed.
Lemma gives_ret {A} (a : A) (Q : A -> Prop) : Q a -> gives (ret a) Q. Proof. intros H s P. auto. Qed.
Lemma gives_lift {A} (r : res A) : gives (lift r) (fun _ => True). Proof. intros s P. split; [exact P|]. now destruct r. Qed.
Lemma gives_any {A} (m : M A) : (forall s, s_heap (snd (m s)) = s_heap s) -> gives m (fun _ => True).
Proof. intros H s P. split; [unfold heap_ok; now rewrite H|]. now destruct (fst (m s)). Qed.
Lemma gives_weaken {A} (m : M A) (Q Q' : A -> Prop) : gives m Q -> (forall a, Q a -> Q' a) -> gives m Q'.
Proof. intros H K s P. destruct (H s P) as [A1 A2]. split; [exact A1|]. destruct (fst (m s)); auto. Qed.
Lemma gives_each {A} (f : A -> M unit) l : (forall a, gives (f a) (fun _ => True)) -> gives (each f l) (fun _ => True).
Proof. intros H. induction l as [|a l IH]; [now apply gives_ret|]. cbn [each]. eapply gives_bind; [apply H|auto]. Qed.
Lemma gives_emit e : gives (emit e) (fun _ => True). Proof. now apply gives_any. Qed.
Lemma gives_error t : gives (print_error t) (fun _ => True). Proof. now apply gives_any. Qed.
Lemma gives_text t : gives (print_text O t) (fun _ => True). Proof. now apply gives_any. Qed.
Lemma gives_get {A} (f : St -> A) : gives (get f) (fun _ => True). Proof. now apply gives_any. Qed.
Lemma gives_heap : gives (get s_heap) (Forall plain_path). Proof. intros s P. split; exact P. Qed.
Lemma gives_set_heap h : Forall plain_path h -> gives (set_heap h) (fun _ => True). Proof. intros H s P. split; [exact H|exact I]. Qed.
Lemma upd_ok h i c : plain_path c -> Forall plain_path h -> Forall plain_path (upd h i c).
Proof. intros P H. revert i. induction H as [|x h X H IH]; intros [|i]; cbn; constructor; auto. Qed.
Lemma nth_ok h i : Forall plain_path h -> plain_path (nth i h empty_config).
Proof. intros H. revert i. induction H as [|x h X H IH]; intros [|i]; cbn; auto; now right. Qed.
Ltac gg := first [apply gives_emit|apply gives_error|apply gives_text|apply gives_get|apply gives_lift|(apply gives_each; intros)|now apply gives_ret].
Definition cfg_ok (x : cfg_err + Config) : Prop := match x with inr c => plain_path c | inl _ => True end.
Lemma gives_load_cfg E path : gives (load_cfg E path) cfg_ok.
Proof.
  unfold load_cfg. eapply gives_bind; [gg|]. intros _ _. eapply gives_bind; [gg|]. intros f _. destruct (load_config _ _ f path) as [e|[c errs]] eqn:L; [now apply gives_ret|].
  apply load_config_path in L as [P _]. eapply gives_bind; [gg; gg|]. intros _ _. apply gives_ret. cbn. left. rewrite P. apply clean_idem.
Qed.
Lemma gives_find_cfg E dir : gives (find_cfg E dir) cfg_ok.
Proof.
  unfold find_cfg. eapply gives_bind; [apply gives_load_cfg|]. intros [[]|c] H; try (now apply gives_ret). eapply gives_bind; [apply gives_load_cfg|].
  intros [[]|c] H'; apply gives_ret; try exact H'. now right.
Qed.
Lemma gives_alloc c : plain_path c -> gives (alloc c) (fun _ => True).
Proof.
  intros P. unfold alloc. eapply gives_bind; [apply gives_heap|]. intros h H. eapply gives_bind; [apply gives_set_heap|intros _ _; now apply gives_ret].
  apply Forall_app. auto.
Qed.
Lemma gives_load_at i : gives (load_at i) plain_path.
Proof. eapply gives_bind; [apply gives_heap|]. intros h H. apply gives_ret. now apply nth_ok. Qed.
Lemma gives_read E : forall paths cl cfg, gives (read_all E O paths cl cfg) (fun _ => True).
Proof.
  induction paths as [|p ps IH]; intros cl cfg; [now apply gives_ret|]. cbn [read_all]. destruct cl.
  - eapply gives_bind; [apply gives_find_cfg|]. intros [e|con] H.
    + eapply gives_bind; [apply IH|]. intros; gg.
    + eapply gives_bind; [now apply gives_alloc|]. intros i _. eapply gives_bind; [gg|]. intros x _. eapply gives_bind; [apply IH|]. intros; gg.
  - eapply gives_bind; [apply gives_load_at|]. intros c H. destruct (negb _).
    + eapply gives_bind; [now apply gives_alloc|]. intros i _. eapply gives_bind; [gg|]. intros x _. eapply gives_bind; [apply IH|]. intros; gg.
    + eapply gives_bind; [gg|]. intros x _. eapply gives_bind; [apply IH|]. intros; gg.
Qed.
Lemma gives_adjust E files : gives (adjust_all E O files) (fun _ => True).
Proof.
  unfold adjust_all. apply gives_each. intros f. unfold adjust_one. destruct (l_err f); [gg|]. eapply gives_bind; [apply gives_heap|]. intros h H. apply gives_set_heap.
  apply upd_ok; [|exact H]. exact (nth_ok h (l_cfg f) H).
Qed.
Lemma gives_load_loop E n : forall l, gives (load_loop E O l n) (fun _ => True).
Proof.
  induction l as [|c l IH]; [gg|]. cbn [load_loop]. eapply gives_bind; [gg|]. intros _ _. eapply gives_bind; [gg|]. intros _ _. eapply gives_bind; [gg|]. intros cache _.
  destruct (load_db _ _ _ _ _ n) as [[r wr] reqs]. eapply gives_bind; [gg; gg|]. intros _ _. eapply gives_bind; [now apply gives_any|]. intros _ _.
  eapply gives_bind; [gg|]. intros [e|db] _.
  - eapply gives_bind; [gg|]. intros _ _. eapply gives_bind; [apply gives_error|]. intros _ _. eapply gives_bind; [exact IH|]. intros; gg.
  - eapply gives_bind; [gg|]. intros _ _. eapply gives_bind; [exact IH|]. intros; gg.
Qed.
Lemma gives_load E l n : gives (load_databases E O l n) (fun _ => True).
Proof.
  unfold load_databases. destruct (o_list_pkgs O); [gg|]. eapply gives_bind; [gg|]. intros _ _. eapply gives_bind; [apply gives_load_loop|]. intros r _. eapply gives_bind; [gg|]. intros; gg.
Qed.
Lemma gives_check_dbs E k lockf : forall dbs, gives (check_dbs E k dbs lockf) (fun _ => True).
Proof.
  induction dbs as [|i dbs IH]; [gg|]. cbn [check_dbs]. eapply gives_bind; [gg|]. intros ds _. destruct (nth_error ds i) as [d|]; [|gg].
  eapply gives_bind; [destruct d; gg|]. intros _ _. eapply gives_bind; [gg|]. intros [r d'] _. eapply gives_bind; [now apply gives_any|]. intros _ _.
  destruct r as [e|rs]; [eapply gives_bind; [gg|]; intros _ _; exact IH|]. eapply gives_bind; [exact IH|]. intros; gg.
Qed.
Definition seen_ok (seen : list entry) : Prop := NoDup (map fst seen) /\ Forall (fun x => clean (fst x) = fst x) seen.
Lemma seen_tidy seen : seen_ok seen -> tidy seen.
Proof. intros [N F]. unfold tidy. rewrite Forall_forall in F. now rewrite (map_ext_in _ fst seen F). Qed.
Lemma add_seen_ok path ids seen : clean path = path -> seen_ok seen -> seen_ok (add_seen path ids seen).
Proof.
  intros C [N F]. unfold add_seen. split; [now apply MemDBProofs.map_set_nodup|]. apply Forall_forall. intros [q v] I. apply map_set_in in I as [[-> _]|I]; [exact C|].
  rewrite Forall_forall in F. exact (F _ I).
Qed.
Lemma gives_check_files E : forall files k exit seen, seen_ok seen -> gives (check_files E O files k exit seen) (fun y => seen_ok (snd y)).
Proof.
  induction files as [|f files IH]; intros k exit seen SK; [now apply gives_ret|]. cbn [check_files].
  eapply gives_bind; [destruct (Nat.leb 1 k); gg|]. intros _ _. destruct (l_err f) as [e|].
  { eapply gives_bind; [gg|]. intros _ _. now apply IH. }
  eapply gives_bind; [apply gives_heap|]. intros h H. cbv zeta. set (c := if o_no_ignores O then _ else _).
  assert (PC : plain_path c) by (pose proof (nth_ok h (l_cfg f) H) as X; unfold c; destruct (o_no_ignores O); exact X).
  eapply gives_bind; [apply gives_set_heap; now apply upd_ok|]. intros _ _. eapply gives_bind; [gg|]. intros _ _. destruct (o_list_pkgs O).
  { eapply gives_bind; [unfold print_result; destruct (o_json O); [now apply gives_any|gg]|]. intros _ _. now apply IH. }
  eapply gives_bind; [destruct (negb _); gg|]. intros _ _. eapply gives_bind; [gg|]. intros dbs _. eapply gives_bind; [gg; destruct (nth_error dbs _); gg|]. intros _ _.
  eapply gives_bind; [gg|]. intros _ _. eapply gives_bind.
  { unfold check_lockfile. eapply gives_bind; [apply gives_check_dbs|]. intros vulns _. eapply gives_bind; [gg|]. intros pk _. now apply (gives_ret _ (fun _ => True)). }
  intros x _. eapply gives_bind; [gg|]. intros _ _. eapply gives_bind; [unfold print_result; destruct (o_json O); [now apply gives_any|gg]|]. intros _ _.
  apply IH. destruct (o_update O && negb (seqb (cf_path c) "")) eqn:U; [|exact SK]. apply add_seen_ok; [|exact SK].
  destruct PC as [PC|PC]; [exact PC|]. rewrite PC in U. apply andb_prop in U as [_ U]. discriminate U.
Qed.
Lemma gives_before E paths cl cfg : gives (before E paths cl cfg) (fun y => seen_ok (snd y)).
Proof.
  unfold before. eapply gives_bind; [apply gives_read|]. intros files _. eapply gives_bind; [apply gives_adjust|]. intros _ _. eapply gives_bind; [gg|]. intros h _.
  eapply gives_bind; [apply gives_load|]. intros x _. eapply gives_bind; [now apply gives_any|]. intros _ _. apply gives_check_files. split; constructor.
Qed.
Definition ends {A} (x y : res A * St) : Prop := fst x = fst y /\ near (snd x) (snd y).
Lemma ends_refl {A} (x : res A * St) : ends x x. Proof. split; [reflexivity|apply near_refl]. Qed.
Definition agree {A} (m m' : M A) : Prop := forall s, heap_ok s -> ends (m s) (m' s).
Lemma agree_bind {A B} (m : M A) (f f' : A -> M B) Q : gives m Q -> (forall a, Q a -> agree (f a) (f' a)) -> agree (bind m f) (bind m f').
Proof.
  intros H K s P. destruct (H s P) as [A1 A2]. unfold bind. destruct (m s) as [[a|] s']; cbn [fst snd] in *; [now apply K|apply ends_refl].
Qed.
Lemma agree_refl {A} (m : M A) : agree m m. Proof. intros s _. apply ends_refl. Qed.
Lemma files_agree paths cl cfg : agree (run_files E1 O paths cl cfg) (run_files E2 O paths cl cfg).
Proof.
  intros s P. rewrite (split_run E1 paths cl cfg s), (split_run E2 paths cl cfg s). unfold bind. rewrite (before_same paths cl cfg s).
  destruct (gives_before E2 paths cl cfg s P) as [_ T]. destruct (before E2 paths cl cfg s) as [[y|] s']; [|apply ends_refl].
  apply after_near; [apply seen_tidy; exact T|apply near_refl].
Qed.
Lemma body_agree : agree (run_body E1 O) (run_body E2 O).
Proof.
  unfold run_body. destruct (o_version O); [apply agree_refl|]. destruct (o_list_eco O); [apply agree_refl|]. destruct (negb _).
  { cbn [e_sort e_iter]. rewrite !list_parsers_all by assumption. apply agree_refl. }
  eapply (agree_bind (find_all_lockfiles E1 O) _ _ (fun _ => True)).
  { intros s P. pose proof (keeps_at _ _ s (fst (find_all_lockfiles E1 O s)) (snd (find_all_lockfiles E1 O s)) (find_all_still E1 O) (surjective_pairing _)) as X.
    split; [|now destruct (fst (find_all_lockfiles E1 O s))]. destruct X as [[n T Q Hh Hf Hr] _]. unfold heap_ok. now rewrite Hh. }
  intros x _. destruct (Nat.eqb _ 0); [apply agree_refl|]. unfold run_config.
  assert (AL : forall c, plain_path c -> forall cl, agree (bind (alloc c) (fun cfg => run_files E1 O (fst x) cl cfg)) (bind (alloc c) (fun cfg => run_files E2 O (fst x) cl cfg))).
  { intros c PC cl. eapply agree_bind; [now apply gives_alloc|]. intros cfg _. apply files_agree. }
  assert (EC : plain_path empty_config) by now right.
  destruct (o_list_pkgs O); [now apply AL|]. destruct (_ && _); [|now apply AL].
  eapply (agree_bind (load_cfg E1 (o_config O))); [apply gives_load_cfg|]. intros [e|con] C; [apply agree_refl|]. now apply AL.
Qed.
Theorem run_agree fs cache : fst (run E1 O (start fs cache)) = fst (run E2 O (start fs cache)) /\ same_end (snd (run E1 O (start fs cache))) (snd (run E2 O (start fs cache))).
Proof.
  destruct (body_agree (start fs cache)) as [A B]; [constructor|]. unfold run. destruct (run_body E1 O (start fs cache)) as [r1 s1], (run_body E2 O (start fs cache)) as [r2 s2].
  cbn [fst snd] in A, B. subst r2. destruct (o_json O); [|split; [reflexivity|apply B]]. unfold print_json_results, bind, get. cbn [e_osv_json].
  destruct B as [B1 (B2 & B3)]. rewrite B3. split; [reflexivity|]. apply (near_emit _ s1 s2). repeat split; try apply B1; auto.
Qed.
End Two.
