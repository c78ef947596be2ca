(** A concrete version library, dotted numbers compared component-wise, used to
    show that the hypotheses about the version library can be met.  It is not
    a model of the real library. *)
From Verif Require Import GoStr GoStrFacts Types OsvSpec.

Definition digit_val (c : ascii) : N := (N_of_ascii c - 48)%N.
Fixpoint num_of (s : string) (acc : N) : N :=
  match s with "" => acc | String c t => num_of t (10 * acc + digit_val c)%N end.

Fixpoint strip_zeros (l : list N) : list N :=
  match l with
  | [] => []
  | x :: l' => match strip_zeros l' with
               | [] => if N.eqb x 0 then [] else [x]
               | l'' => x :: l''
               end
  end.
Definition vkey (s : string) : list N := strip_zeros (map (fun p => num_of p 0) (split_char "." s)).

Fixpoint lcmp (a b : list N) : Z :=
  match a, b with
  | [], [] => 0%Z
  | [], _ => (-1)%Z
  | _, [] => 1%Z
  | x :: a', y :: b' => match N.compare x y with Lt => (-1)%Z | Gt => 1%Z | Eq => lcmp a' b' end
  end.

Definition num_cmp (a b : string) : Z := lcmp (vkey a) (vkey b).
Definition num_ok (v : string) : bool := str_forall (fun c => is_digit c || Ascii.eqb c ".") v.
Definition num_sem : Semantic := mkSem (fun _ => num_ok) (fun _ => num_cmp).

Lemma lcmp_refl a : lcmp a a = 0%Z.
Proof. induction a as [|x a IH]; cbn; [reflexivity|]. now rewrite N.compare_refl. Qed.
Lemma lcmp_anti a b : (lcmp a b = - lcmp b a)%Z.
Proof.
  revert b. induction a as [|x a IH]; intros [|y b]; cbn; try reflexivity.
  rewrite (N.compare_antisym y x). destruct (N.compare y x); cbn; auto.
Qed.
Lemma lcmp_range a b : (-1 <= lcmp a b <= 1)%Z.
Proof. revert b. induction a as [|x a IH]; intros [|y b]; cbn; try lia. destruct (N.compare x y); auto; lia. Qed.
Lemma lcmp_trans a b c : (lcmp a b <= 0 -> lcmp b c <= 0 -> lcmp a c <= 0)%Z.
Proof.
  revert b c. induction a as [|x a IH]; intros [|y b] [|z c]; cbn; try lia.
  destruct (N.compare_spec x y), (N.compare_spec y z), (N.compare_spec x z); subst; try lia; eauto.
Qed.

Lemma num_order eco : VersionOrder (sem_cmp num_sem eco).
Proof.
  cbn. unfold num_cmp. split; intros.
  - apply lcmp_refl.
  - pose proof (lcmp_anti (vkey a) (vkey b)). lia.
  - eapply lcmp_trans; eauto.
Qed.
