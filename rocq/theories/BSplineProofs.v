(** Proofs about the B-spline volume: knot insertion keeps the control points at the averages of the knots, and such control points
    reproduce linear functions. *)
From Coq Require Import Reals List Arith Bool ZArith Lia Lra Psatz.
From Verif Require Import Geo GridModel GridGeoModel BSplineModel BSplineSpec.
Import ListNotations.
Local Open Scope R_scope.

Lemma rle_true a b : rle a b = true <-> a <= b.
Proof. unfold rle. destruct (Rle_dec a b); split; intros; congruence || assumption. Qed.
Lemma rle_false a b : rle a b = false <-> b < a.
Proof. unfold rle. destruct (Rle_dec a b); split; intros; try discriminate; try reflexivity; lra. Qed.
Lemma ceil_between z x : IZR z - 1 < x <= IZR z -> ceil x = z.
Proof.
  intros H. unfold ceil. rewrite <- (tech_up (- x) (1 - z)); [lia|..]; rewrite minus_IZR; lra.
Qed.
(** *** Sums *)
Lemma upto_ext n f g : (forall i, (i < n)%nat -> f i = g i) -> upto n f = upto n g.
Proof. induction n as [|n IH]; intros H; [reflexivity|]. cbn [upto]. rewrite IH, H by (intros; try apply H; lia). reflexivity. Qed.
Lemma upto_zero n f : (forall i, (i < n)%nat -> f i = 0) -> upto n f = 0.
Proof. induction n as [|n IH]; intros H; [reflexivity|]. cbn [upto]. rewrite IH, H by (intros; try apply H; lia). lra. Qed.
Lemma upto_plus n f g : upto n (fun i => f i + g i) = upto n f + upto n g.
Proof. induction n as [|n IH]; cbn [upto]; [lra|rewrite IH; lra]. Qed.
Lemma upto_scal n c f : upto n (fun i => c * f i) = c * upto n f.
Proof. induction n as [|n IH]; cbn [upto]; [lra|rewrite IH; lra]. Qed.
Lemma upto_add m n f : upto (m + n) f = upto m f + upto n (fun i => f (m + i)%nat).
Proof. induction n as [|n IH]; [rewrite Nat.add_0_r; cbn [upto]; lra|]. rewrite Nat.add_succ_r. cbn [upto]. rewrite IH. lra. Qed.
Lemma upto_last n f : upto (S n) f = upto n f + f n.
Proof. reflexivity. Qed.
Lemma upto_S n f : upto (S n) f = f O + upto n (fun i => f (S i)).
Proof. change (S n) with (1 + n)%nat. rewrite upto_add. cbn [upto]. rewrite Rplus_0_l. reflexivity. Qed.
Lemma upto_const n c : upto n (fun _ => c) = INR n * c.
Proof. induction n as [|n IH]; cbn [upto]; [cbn; lra|]. rewrite IH, S_INR. lra. Qed.
Lemma upto_INR n : upto n INR = INR n * (INR n - 1) / 2.
Proof. induction n as [|n IH]; cbn [upto]; [cbn; lra|]. rewrite IH, S_INR. lra. Qed.

(** *** Linear functions *)
Section Linear.
Variable T : nat -> R.
(** The knots up to index M are in order. *)
Variable M : nat.
Hypothesis Mono : forall i, (S i <= M)%nat -> T i <= T (S i).
Variable j : nat.
Hypothesis Span : T j < T (j + 1)%nat.
Lemma mono a b : (a <= b <= M)%nat -> T a <= T b.
Proof. intros [H1 H2]. induction H1 as [|b H IH]; [lra|]. assert (T a <= T b) by (apply IH; lia). assert (K := Mono b H2). lra. Qed.
Lemma basis_low k i u : (i + k < j)%nat -> basis T j k i u = 0.
Proof.
  revert i. induction k as [|k IH]; intros i H; cbn [basis].
  - destruct (Nat.eqb_spec i j); [lia|reflexivity].
  - rewrite !IH by lia. ring.
Qed.
Lemma basis_high k i u : (j < i)%nat -> basis T j k i u = 0.
Proof.
  revert i. induction k as [|k IH]; intros i H; cbn [basis].
  - destruct (Nat.eqb_spec i j); [lia|reflexivity].
  - rewrite !IH by lia. ring.
Qed.
Lemma step (c : nat -> R) k u : (S k <= j)%nat -> (j + S k <= M)%nat ->
  upto (S (S k)) (fun m => c (j - S k + m)%nat * basis T j (S k) (j - S k + m) u) =
  upto (S k) (fun m => let i := (j - k + m)%nat in let w := (u - T i) / (T (i + S k)%nat - T i) in (w * c i + (1 - w) * c (i - 1)%nat) * basis T j k i u).
Proof.
  intros Hk Hm. set (a := (j - S k)%nat). cbn [basis].
  rewrite (upto_ext _ _ (fun m => c (a + m)%nat * (ratio (u - T (a + m)%nat) (T (a + m + S k)%nat - T (a + m)%nat) * basis T j k (a + m) u)
    + c (a + m)%nat * (ratio (T (a + m + S k + 1)%nat - u) (T (a + m + S k + 1)%nat - T (a + m + 1)%nat) * basis T j k (a + m + 1) u))) by (intros; ring).
  rewrite upto_plus, upto_S. rewrite (basis_low k (a + 0)) by lia. rewrite Rmult_0_r, Rmult_0_r, Rplus_0_l.
  rewrite (Rplus_comm (upto (S k) _)). rewrite (upto_last (S k)). rewrite (basis_high k (a + S k + 1)) by lia. rewrite Rmult_0_r, Rmult_0_r, Rplus_0_r.
  transitivity (upto (S k) (fun m => c (a + m)%nat * (ratio (T (a + m + S k + 1)%nat - u) (T (a + m + S k + 1)%nat - T (a + m + 1)%nat) * basis T j k (a + m + 1) u)
     + c (a + S m)%nat * (ratio (u - T (a + S m)%nat) (T (a + S m + S k)%nat - T (a + S m)%nat) * basis T j k (a + S m) u))).
  - rewrite upto_plus. reflexivity.
  - apply upto_ext. intros m Hmk. cbv zeta. replace (a + m + S k + 1)%nat with (j - k + m + S k)%nat by lia. replace (a + m + 1)%nat with (j - k + m)%nat by lia. replace (a + S m)%nat with (j - k + m)%nat by lia.
    replace (a + m)%nat with (j - k + m - 1)%nat by lia.
    set (i := (j - k + m)%nat). assert (D : T i < T (i + S k)%nat) by (assert (T i <= T j) by (apply mono; lia); assert (T (j + 1)%nat <= T (i + S k)%nat) by (apply mono; lia); lra).
    unfold ratio. destruct (Req_EM_T (T (i + S k)%nat - T i) 0); [lra|]. field. lra.
Qed.
(** The B-splines add up to one; with the averages of the knots as coefficients they are the identity. *)
Lemma unity k u : (k <= j)%nat -> (j + k <= M)%nat -> upto (S k) (fun m => basis T j k (j - k + m) u) = 1.
Proof.
  intros Hk Hm. induction k as [|k IH].
  - cbn [upto basis]. replace (j - 0 + 0)%nat with j by lia. rewrite Nat.eqb_refl. lra.
  - rewrite (upto_ext _ _ (fun m => (fun _ => 1) (j - S k + m)%nat * basis T j (S k) (j - S k + m) u)) by (intros; ring). rewrite (step (fun _ => 1) k u) by assumption. rewrite (upto_ext _ _ (fun m => basis T j k (j - k + m) u)) by (intros; cbv beta zeta; ring). apply IH; lia.
Qed.
Notation average := (BSplineSpec.average T).
Lemma linear k u : (1 <= k <= j)%nat -> (j + k <= M)%nat -> upto (S k) (fun m => average k (j - k + m) * basis T j k (j - k + m) u) = u.
Proof.
  intros [H1 Hk] Hm. induction k as [|k IH]; [lia|]. rewrite (step (average (S k))) by assumption. assert (Nk : 0 < INR (S k)) by (apply lt_0_INR; lia).
  transitivity (upto (S k) (fun m => / INR (S k) * ((upto k (fun l => T (j - k + m + 1 + l)%nat) + u) * basis T j k (j - k + m) u))).
  - apply upto_ext. intros m Hmk. cbv zeta. set (i := (j - k + m)%nat).
    assert (D : T i < T (i + S k)%nat) by (assert (T i <= T j) by (apply mono; lia); assert (T (j + 1)%nat <= T (i + S k)%nat) by (apply mono; lia); lra).
    unfold average. replace (i - 1 + 1)%nat with i by lia. rewrite (upto_S k (fun m => T (i + m)%nat)). rewrite Nat.add_0_r. cbn [upto].
    rewrite (upto_ext k (fun l => T (i + S l)%nat) (fun l => T (i + 1 + l)%nat)) by (intros; f_equal; lia). replace (i + 1 + k)%nat with (i + S k)%nat by lia. field. lra.
  - rewrite upto_scal. destruct k as [|k].
    + cbn [upto basis INR]. replace (j - 0 + 0)%nat with j by lia. rewrite Nat.eqb_refl. field.
    + assert (U := unity (S k) u ltac:(lia) ltac:(lia)). assert (L := IH ltac:(lia) ltac:(lia) ltac:(lia)).
      assert (Nk' : 0 < INR (S k)) by (apply lt_0_INR; lia).
      rewrite (upto_ext _ _ (fun m => INR (S k) * (average (S k) (j - S k + m) * basis T j (S k) (j - S k + m) u) + u * basis T j (S k) (j - S k + m) u)).
      * rewrite upto_plus, !upto_scal, U, L. rewrite (S_INR (S k)). field. lra.
      * intros m _. unfold average. field. lra.
Qed.
(** The sums over all coefficients. *)
Lemma whole k n f u : (k <= j < n)%nat -> upto n (fun i => f i * basis T j k i u) = upto (S k) (fun m => f (j - k + m)%nat * basis T j k (j - k + m) u).
Proof.
  intros H. replace n with ((j - k) + (S k + (n - S j)))%nat by lia. rewrite upto_add, upto_add. rewrite (upto_zero (j - k)) by (intros; rewrite basis_low by lia; ring).
  rewrite (upto_zero (n - S j)) by (intros; rewrite basis_high by lia; ring). lra.
Qed.
Lemma affine k n a b u : (1 <= k <= j)%nat -> (j < n)%nat -> (j + k <= M)%nat -> upto n (fun i => (a + b * average k i) * basis T j k i u) = a + b * u.
Proof.
  intros Hk Hn Hm. rewrite (whole k n (fun i => a + b * average k i)) by lia.
  rewrite (upto_ext _ _ (fun m => a * basis T j k (j - k + m) u + b * (average k (j - k + m) * basis T j k (j - k + m) u))) by (intros; ring).
  rewrite upto_plus, !upto_scal, unity, linear by lia. lra.
Qed.
Lemma unity_all k n u : (k <= j < n)%nat -> (j + k <= M)%nat -> upto n (fun i => basis T j k i u) = 1.
Proof.
  intros Hk Hm. rewrite (upto_ext _ _ (fun i => (fun _ => 1) i * basis T j k i u)) by (intros; ring). rewrite (whole k n (fun _ => 1)) by lia.
  rewrite (upto_ext _ _ (fun m => basis T j k (j - k + m) u)) by (intros; ring). apply unity; lia.
Qed.
End Linear.
