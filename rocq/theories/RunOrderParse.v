From Coq Require Import Permutation.
From Verif Require Import GoStr GoStrFacts GoMap GoSort GoSortFacts Types Osv MemDB Path PkgMap Api ZipDB DirDB DbConfig Configer LockIO OrderSpec Parsers Lockfile LockfileSpec LockfileProofs Json Report Main MainSpec MainTrace MainProofs RunProofs RunOrderSpec RunOrderProofs.

(** ** packages told apart by name and version are sorted in one way *)
Lemma pkg_le_anti a b : pkg_le a b -> pkg_le b a -> p_name a = p_name b /\ p_version a = p_version b.
Proof.
  assert (IR : forall x, ~ str_lt x x) by (intros x H; apply str_lt_iff in H; rewrite str_ltb_irrefl in H; discriminate).
  assert (AS : forall x y, str_lt x y -> str_lt y x -> False) by (intros x y H K; apply str_lt_iff in H, K; pose proof (str_ltb_trans _ _ _ H K) as X; rewrite str_ltb_irrefl in X; discriminate).
  intros [A|[A B]] [C|[C D]].
  - destruct (AS _ _ A C).
  - rewrite C in A. destruct (IR _ A).
  - rewrite A in C. destruct (IR _ C).
  - split; [exact A|]. destruct B as [B|B]; [|exact B]. destruct D as [D|D]; [destruct (AS _ _ B D)|congruence].
Qed.
Lemma sorted_one l1 : StronglySorted pkg_le l1 -> forall l2, told_apart l1 -> Permutation l1 l2 -> StronglySorted pkg_le l2 -> l1 = l2.
Proof.
  intros S1. induction S1 as [|x l1 S1 IH F]; intros l2 T P S2.
  - apply Permutation_nil in P. now subst.
  - destruct l2 as [|y l2]; [symmetry in P; apply Permutation_nil in P; discriminate|].
    assert (x = y) as ->.
    { inversion S2 as [|? ? S2' F2]; subst. rewrite Forall_forall in F, F2.
      assert (I : In y (x :: l1)) by (eapply Permutation_in; [symmetry; exact P|left; reflexivity]).
      assert (J : In x (y :: l2)) by (eapply Permutation_in; [exact P|left; reflexivity]).
      destruct I as [->|I]; [reflexivity|]. destruct J as [->|J]; [reflexivity|].
      destruct (pkg_le_anti x y (F _ I) (F2 _ J)) as [N V]. apply T; auto; [left; reflexivity|right; exact I]. }
    f_equal. inversion S2; subst. apply IH; auto; [|eapply Permutation_cons_inv; exact P]. intros p q A B. apply T; now right.
Qed.
Lemma sort_one so ps qs : SorterOk so -> Permutation ps qs -> told_apart ps -> so _ pkg_less ps = so _ pkg_less qs.
Proof.
  intros HS P T. destruct (sort_packages so ps HS) as [P1 S1], (sort_packages so qs HS) as [P2 S2]. apply sorted_one; auto.
  - intros p q A B. apply T; eapply Permutation_in; try eassumption; now symmetry.
  - rewrite <- P1, <- P2. exact P.
Qed.
Lemma parse_one so im im' path pa : SorterOk so -> same_parsers im im' -> Lockfile.parse so im path pa = Lockfile.parse so im' path pa.
Proof.
  intros HS H. unfold Lockfile.parse. destruct (find_parser path pa) as [[f|] k]; [|reflexivity]. destruct (H f path) as [r|ps qs e P T]; [reflexivity|].
  cbn [rbind]. now rewrite (sort_one so ps qs HS P T).
Qed.

(** ** nothing else depends on the parsers *)
Section Two.
Variables (w : World) (se : Semantic) (so : Sorter) (it : Iter) (co : string -> string -> string) (te : any_err -> string) (oj : OSV -> json)
  (st : string -> path_kind) (im im' : ParserFn -> Parser) (cs : string -> option string) (cp : string -> string) (de : string -> option raw_config)
  (en : raw_config -> string) (op : string -> bool) (ap : nat -> APIDB -> list Pkg -> res (api_err + list (list OSV))) (ve : string).
Notation E1 := (mkEnv w se so it co te oj st im cs cp de en op ap ve).
Notation E2 := (mkEnv w se so it co te oj st im' cs cp de en op ap ve).
Variable O : Opts.
Hypothesis HS : SorterOk so.
Hypothesis H : same_parsers im im'.
Lemma lockfile_one p : parse_lockfile E1 O p = parse_lockfile E2 O p.
Proof. unfold parse_lockfile. destruct (split_parse_as p) as [pa path]. cbn [e_sort e_impl e_csv]. now rewrite (parse_one so im im' path pa HS H). Qed.
Lemma read_one : forall paths cl cfg, same (read_all E1 O paths cl cfg) (read_all E2 O paths cl cfg).
Proof.
  induction paths as [|p ps IH]; intros cl cfg; [apply same_refl|]. cbn [read_all].
  assert (F : forall c, same (x <- lift (parse_lockfile E1 O p) ; rest <- read_all E1 O ps cl c ; ret (mkLFile (fst x) c (snd x) :: rest))
                             (x <- lift (parse_lockfile E2 O p) ; rest <- read_all E2 O ps cl c ; ret (mkLFile (fst x) c (snd x) :: rest))).
  { intros c. rewrite lockfile_one. apply same_bind; [apply same_refl|]. intros x. apply same_bind; [apply IH|]. intros r. apply same_refl. }
  destruct cl.
  - apply same_bind; [apply same_refl|]. intros [e|con].
    + apply same_bind; [apply IH|]. intros r. apply same_refl.
    + apply same_bind; [apply same_refl|]. intros c. apply F.
  - apply same_bind; [apply same_refl|]. intros c. destruct (negb _); [|apply F]. apply same_bind; [apply same_refl|]. intros d. apply F.
Qed.
Lemma files_one paths cl cfg : same (run_files E1 O paths cl cfg) (run_files E2 O paths cl cfg).
Proof. unfold run_files. apply same_bind; [apply read_one|]. intros files. apply same_refl. Qed.
Theorem run_one s : run E1 O s = run E2 O s.
Proof.
  unfold run. assert (B : same (run_body E1 O) (run_body E2 O)).
  { unfold run_body. destruct (o_version O); [apply same_refl|]. destruct (o_list_eco O); [apply same_refl|]. destruct (negb _); [apply same_refl|].
    apply same_bind; [apply same_refl|]. intros x. destruct (Nat.eqb _ 0); [apply same_refl|]. unfold run_config.
    destruct (o_list_pkgs O); [apply same_bind; [apply same_refl|intros cfg; apply files_one]|].
    destruct (_ && _); [|apply same_bind; [apply same_refl|intros cfg; apply files_one]].
    apply same_bind; [apply same_refl|]. intros [e|con]; [apply same_refl|]. apply same_bind; [apply same_refl|intros cfg; apply files_one]. }
  rewrite B. destruct (run_body E2 O s) as [r s1]. destruct (o_json O); reflexivity.
Qed.
End Two.

Theorem order_same E O it it' im im' s : SorterOk (e_sort E) -> IterOk it -> IterOk it' -> same_parsers im im' -> o_update O = false ->
  run (with_order E it im) O s = run (with_order E it' im') O s.
Proof. intros HS I I' H U. unfold with_order. rewrite (run_one _ _ _ it _ _ _ _ im im' _ _ _ _ _ _ _ O HS H s). now apply run_same. Qed.
Theorem order_update E O it it' im im' fs cache : SorterOk (e_sort E) -> IterOk it -> IterOk it' -> same_parsers im im' ->
  fst (run (with_order E it im) O (start fs cache)) = fst (run (with_order E it' im') O (start fs cache))
  /\ same_end (snd (run (with_order E it im) O (start fs cache))) (snd (run (with_order E it' im') O (start fs cache))).
Proof. intros HS I I' H. unfold with_order. rewrite (run_one _ _ _ it _ _ _ _ im im' _ _ _ _ _ _ _ O HS H (start fs cache)). now apply run_agree. Qed.

(** ** the parsers *)
Lemma impl_found D it it' files depth text f path r r' :
  fst (run_parser D it files depth f path) = Some r -> fst (run_parser D it' files depth f path) = Some r' -> same_packages r r' ->
  (forall ps, r = Ok (inr ps) -> told_apart ps) -> same_found (impl D it files depth text f path) (impl D it' files depth text f path).
Proof.
  intros A B S T. unfold impl. rewrite A, B. destruct S as [|f0|ps qs P]; try constructor; cbn [parsed].
  - now rewrite !map_id in P.
  - now apply T.
Qed.
