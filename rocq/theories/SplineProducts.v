(** Products and derivatives of splines. *)
From Coq Require Import Arith Reals List Lra Lia.
From Verif Require Import SplineSpec.
Import ListNotations.
Local Open Scope R_scope.

Fixpoint add (a b : list R) : list R := match a, b with [], _ => b | _, [] => a | x :: a, y :: b => x + y :: add a b end.
Definition smul (s : R) (a : list R) : list R := map (Rmult s) a.
Fixpoint mul (a b : list R) : list R := match a with [] => [] | x :: a => add (smul x b) (0 :: mul a b) end.
Lemma value_add a : forall b t, value (add a b) t = value a t + value b t.
Proof. induction a as [|x a IH]; intros [|y b] t; cbn [add value fold_right]; try ring. fold (value (add a b) t). rewrite IH. unfold value. ring. Qed.
Lemma value_smul s a t : value (smul s a) t = s * value a t.
Proof. unfold value, smul. induction a as [|x a IH]; cbn [map fold_right]; [ring|]. rewrite IH. ring. Qed.
Lemma value_cons x a t : value (x :: a) t = x + t * value a t. Proof. reflexivity. Qed.
Lemma value_mul a b t : value (mul a b) t = value a t * value b t.
Proof. induction a as [|x a IH]; cbn [mul]; [cbn; ring|]. rewrite value_add, value_smul, !value_cons, IH. ring. Qed.
Lemma weighted_S c : forall k t, value (weighted (S k) c) t = value (weighted k c) t + value c t.
Proof. induction c as [|a c IH]; intros k t; cbn [weighted]; [cbn; ring|]. rewrite !value_cons, IH, S_INR. ring. Qed.
Lemma weighted_0 c t : value (weighted 0 c) t = t * value (derivative c) t.
Proof. destruct c as [|a c]; cbn [weighted derivative]; [cbn; ring|]. rewrite value_cons. cbn [INR]. ring. Qed.
Lemma value_derivative_cons x a t : value (derivative (x :: a)) t = value a t + t * value (derivative a) t.
Proof. cbn [derivative]. rewrite weighted_S, weighted_0. ring. Qed.
Lemma value_derivable c t : derivable_pt_lim (value c) t (value (derivative c) t).
Proof.
  induction c as [|a c IH]; [apply derivable_pt_lim_const|]. rewrite value_derivative_cons. replace (value c t + t * value (derivative c) t) with (0 + (1 * value c t + t * value (derivative c) t)) by ring.
  apply (derivable_pt_lim_plus (fun _ => a) (fun t => t * value c t)); [apply derivable_pt_lim_const|]. apply (derivable_pt_lim_mult (fun t => t) (value c)); [apply derivable_pt_lim_id|exact IH].
Qed.
Lemma derivative_ext a b : (forall t, value a t = value b t) -> forall t, value (derivative a) t = value (derivative b) t.
Proof.
  intros H t. apply (uniqueness_limite (value a) t); [apply value_derivable|]. pose proof (value_derivable b t) as D. unfold derivable_pt_lim in *. intros eps Heps. destruct (D eps Heps) as (dl & HD). exists dl. intros h. rewrite !H. apply HD.
Qed.
Lemma derivative_mul a b t : value (derivative (mul a b)) t = value (add (mul (derivative a) b) (mul a (derivative b))) t.
Proof.
  rewrite value_add, !value_mul. apply (uniqueness_limite (value (mul a b)) t); [apply value_derivable|]. pose proof (derivable_pt_lim_mult (value a) (value b) t _ _ (value_derivable a t) (value_derivable b t)) as D. unfold derivable_pt_lim in *.
  intros eps Heps. destruct (D eps Heps) as (dl & HD). exists dl. intros h. rewrite !value_mul. apply HD.
Qed.
Lemma derivative_add a b t : value (derivative (add a b)) t = value (add (derivative a) (derivative b)) t.
Proof.
  rewrite value_add. apply (uniqueness_limite (value (add a b)) t); [apply value_derivable|]. pose proof (derivable_pt_lim_plus (value a) (value b) t _ _ (value_derivable a t) (value_derivable b t)) as D. unfold derivable_pt_lim in *.
  intros eps Heps. destruct (D eps Heps) as (dl & HD). exists dl. intros h. rewrite !value_add. apply HD.
Qed.
(** all derivatives up to the r-th agree *)
Definition agree (r : nat) (a b : list R) : Prop := forall k, (k <= r)%nat -> value (derivatives k a) 1 = value (derivatives k b) 0.
Lemma derivatives_ext k : forall a b, (forall t, value a t = value b t) -> forall t, value (derivatives k a) t = value (derivatives k b) t.
Proof. induction k as [|k IH]; intros a b H t; [apply H|]. cbn [derivatives]. apply IH. apply derivative_ext. exact H. Qed.
Lemma agree_ext r a a' b b' : (forall t, value a t = value a' t) -> (forall t, value b t = value b' t) -> agree r a b -> agree r a' b'.
Proof. intros H1 H2 H k Hk. rewrite <- (derivatives_ext k a a' H1), <- (derivatives_ext k b b' H2). apply H. exact Hk. Qed.
Lemma agree_S r a b : agree (S r) a b <-> value a 1 = value b 0 /\ agree r (derivative a) (derivative b).
Proof.
  split.
  - intros H. split; [exact (H 0%nat ltac:(lia))|]. intros k Hk. exact (H (S k) ltac:(lia)).
  - intros (H0 & H) [|k] Hk; [exact H0|]. apply (H k). lia.
Qed.
Lemma agree_less r r' a b : (r' <= r)%nat -> agree r a b -> agree r' a b.
Proof. intros Hr H k Hk. apply H. lia. Qed.
Lemma agree_add r : forall a a' b b', agree r a b -> agree r a' b' -> agree r (add a a') (add b b').
Proof.
  induction r as [|r IH]; intros a a' b b' H H'.
  - intros k Hk. assert (k = 0%nat) as -> by lia. cbn [derivatives]. rewrite !value_add. rewrite (H 0%nat (le_n _) : value a 1 = value b 0), (H' 0%nat (le_n _) : value a' 1 = value b' 0). reflexivity.
  - apply agree_S in H, H'. destruct H as (H0 & H). destruct H' as (H0' & H'). apply agree_S. split; [rewrite !value_add, H0, H0'; reflexivity|].
    apply (agree_ext r (add (derivative a) (derivative a')) _ (add (derivative b) (derivative b'))); [intros t; symmetry; apply derivative_add|intros t; symmetry; apply derivative_add|]. apply IH; assumption.
Qed.
Lemma agree_mul r : forall a a' b b', agree r a b -> agree r a' b' -> agree r (mul a a') (mul b b').
Proof.
  induction r as [|r IH]; intros a a' b b' H H'.
  - intros k Hk. assert (k = 0%nat) as -> by lia. cbn [derivatives]. rewrite !value_mul. rewrite (H 0%nat (le_n _) : value a 1 = value b 0), (H' 0%nat (le_n _) : value a' 1 = value b' 0). reflexivity.
  - pose proof (agree_less (S r) r _ _ ltac:(lia) H) as Hl. pose proof (agree_less (S r) r _ _ ltac:(lia) H') as Hl'. apply agree_S in H, H'. destruct H as (H0 & H). destruct H' as (H0' & H'). apply agree_S. split; [rewrite !value_mul, H0, H0'; reflexivity|].
    apply (agree_ext r (add (mul (derivative a) a') (mul a (derivative a'))) _ (add (mul (derivative b) b') (mul b (derivative b')))); [intros t; symmetry; apply derivative_mul|intros t; symmetry; apply derivative_mul|].
    apply agree_add; apply IH; assumption.
Qed.

Lemma add_length a : forall b, length (add a b) = Nat.max (length a) (length b).
Proof. induction a as [|x a IH]; intros [|y b]; cbn [add length]; try reflexivity. rewrite IH. lia. Qed.
Lemma mul_length a b n k : (length a <= n + 1)%nat -> (length b <= k + 1)%nat -> (length (mul a b) <= n + k + 1)%nat.
Proof.
  revert n. induction a as [|x a IH]; intros n Ha Hb; cbn [mul length] in *; [lia|]. rewrite add_length. unfold smul. rewrite map_length. cbn [length]. destruct a as [|y a]; [cbn [mul length]; lia|]. destruct n as [|n]; [cbn [length] in Ha; lia|].
  specialize (IH n ltac:(lia) Hb). lia.
Qed.
Lemma derivative_length c : length (derivative c) = pred (length c).
Proof. destruct c as [|a c]; [reflexivity|]. cbn [derivative length pred]. assert (W : forall k, length (weighted k c) = length c) by (induction c as [|b c IH]; intros k; cbn [weighted length]; [reflexivity|rewrite IH; reflexivity]). apply W. Qed.
Lemma size_add a : forall b, size (add a b) <= size a + size b.
Proof.
  induction a as [|x a IH]; intros [|y b]; cbn [add]; [cbn; lra|change (size (@nil R)) with 0; lra|change (size (@nil R)) with 0; lra|]. change (Rabs (x + y) + size (add a b) <= (Rabs x + size a) + (Rabs y + size b)). specialize (IH b). pose proof (Rabs_triang x y). lra.
Qed.
Lemma size_smul s a : size (smul s a) = Rabs s * size a.
Proof. unfold size, smul. induction a as [|x a IH]; cbn [map fold_right]; [ring|]. rewrite IH, Rabs_mult. ring. Qed.
Lemma size_mul a b : size (mul a b) <= size a * size b.
Proof.
  induction a as [|x a IH]; cbn [mul]; [cbn; lra|]. eapply Rle_trans; [apply size_add|]. rewrite size_smul. change (size (0 :: mul a b)) with (Rabs 0 + size (mul a b)). change (size (x :: a)) with (Rabs x + size a). rewrite Rabs_R0. lra.
Qed.
Lemma size_derivative c n : (length c <= n + 1)%nat -> size (derivative c) <= INR n * size c.
Proof.
  intros H. assert (N : 0 <= INR n) by apply pos_INR. destruct c as [|a c]; [cbn; lra|]. cbn [derivative length] in *. change (size (a :: c)) with (Rabs a + size c).
  assert (W : forall c k, (k + length c <= n + 1)%nat -> size (weighted k c) <= INR n * size c).
  { clear - N. induction c as [|b c IH]; intros k Hk; cbn [weighted]; [cbn; lra|]. cbn [length] in Hk. change (Rabs (INR k * b) + size (weighted (S k) c) <= INR n * (Rabs b + size c)). specialize (IH (S k) ltac:(lia)).
    rewrite Rabs_mult, (Rabs_right (INR k)) by (apply Rle_ge, pos_INR). assert (INR k <= INR n) by (apply le_INR; lia). pose proof (Rabs_pos b). nra. }
  specialize (W c 1%nat ltac:(lia)). pose proof (Rabs_pos a). nra.
Qed.
