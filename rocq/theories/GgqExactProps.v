(** Property C63: the one-dimensional generalized Gauss rules integrate every spline of their target space. *)
From Coq Require Import Arith Reals QArith Qreals List Lra Lia.
From Verif Require Import SplineSpec Ggq1dModel Ggq1dSpec Ggq1dProofs Ggq1dAll Ggq1dProps GgqExactCheck GgqExactRules GgqExactClasses GgqExactRun SplineProducts.
Import ListNotations.
Local Open Scope R_scope.

(** the points and weights of the rule as real numbers *)
Definition real_rule (l : qrule) : list (R * R) := map (fun q => (Q2R (fst q), Q2R (snd q))) l.
Lemma quadrature_gs l f : quadrature (real_rule l) f = gs l f.
Proof. unfold quadrature, real_rule, gs. induction l as [|q l IH]; [reflexivity|]. cbn [map fold_right fst snd]. rewrite IH. reflexivity. Qed.
Lemma every_rule d e meth : (2 <= d <= 4)%nat -> (1 <= e)%nat -> exists l, get_ggq d e meth = Some l /\ rule_chain (fst (target d meth)) (snd (target d meth)) e l.
Proof.
  intros Hd He. assert (d = 2 \/ d = 3 \/ d = 4)%nat as [-> | [-> | ->]] by lia; destruct meth;
  [exact (chains_sound 25 2 Optimal ltac:(lia) optimal_2 e He)|exact (chains_sound 5 2 Reduced1 ltac:(lia) reduced1_2 e He)|exact (chains_sound 32 2 Reduced2 ltac:(lia) reduced2_2 e He)|
   exact (chains_sound 26 3 Optimal ltac:(lia) optimal_3 e He)|exact (chains_sound 9 3 Reduced1 ltac:(lia) reduced1_3 e He)|exact (chains_sound 26 3 Reduced2 ltac:(lia) reduced2_3 e He)|
   exact (chains_sound 43 4 Optimal ltac:(lia) optimal_4 e He)|exact (chains_sound 49 4 Reduced1 ltac:(lia) reduced1_4 e He)|exact (chains_sound 48 4 Reduced2 ltac:(lia) reduced2_4 e He)].
Qed.
Lemma ggq_rules_exact d e meth : (2 <= d <= 4)%nat -> (1 <= e)%nat ->
  exists l, get_ggq d e meth = Some l /\
    forall P f F, spline_pieces (fst (target d meth)) (snd (target d meth)) e P -> has_pieces e P f -> antiderivative F f ->
      Rabs (quadrature (real_rule l) f - (F 1 - F 0)) <= / 10 ^ 13 * (total (fun i => size (P i)) e / INR e).
Proof.
  intros Hd He. destruct (every_rule d e meth Hd He) as (l & El & den & es & Hden & Hl & Hc & Hs). exists l. split; [exact El|]. intros P f F HP Hf HF. rewrite quadrature_gs.
  apply (rule_error (fst (target d meth)) (snd (target d meth)) den es e P f F _ Hden) with (6 := HP); try assumption.
  - destruct meth; cbn [target fst]; lia.
  - destruct meth; cbn [target snd]; lia.
  - apply Hs.
Qed.
(** For basis functions of degree d, any number e >= 1 of knot spans and any of the three methods the rule exists, and it
    integrates every spline of the target space over the e equal knot spans with an error of at most 1e-13 times the mean
    of the coefficient sums of the pieces. *)
Theorem C63_ggq_rules_integrate_splines : forall d e meth, (2 <= d <= 4)%nat -> (1 <= e)%nat ->
  exists l, get_ggq d e meth = Some l /\
    forall P f F, spline_pieces (fst (target d meth)) (snd (target d meth)) e P -> has_pieces e P f -> antiderivative F f ->
      Rabs (quadrature (real_rule l) f - (F 1 - F 0)) <= / 10 ^ 13 * (total (fun i => size (P i)) e / INR e).
Proof. exact ggq_rules_exact. Qed.
Print Assumptions C63_ggq_rules_integrate_splines.

(** ** the integrals of a Galerkin method: u, v splines of degree d with d-1 continuous derivatives *)
Lemma total_le f g n : (forall i, (i < n)%nat -> f i <= g i) -> total f n <= total g n.
Proof. induction n as [|n IH]; intros H; cbn [total]; [lra|]. specialize (IH ltac:(intros i Hi; apply H; lia)). specialize (H n ltac:(lia)). lra. Qed.
Lemma bound_le (f g : nat -> R) e x : (1 <= e)%nat -> (forall i, (i < e)%nat -> f i <= g i) -> x <= / 10 ^ 13 * (total f e / INR e) -> x <= / 10 ^ 13 * (total g e / INR e).
Proof.
  intros He H Hx. eapply Rle_trans; [exact Hx|]. apply Rmult_le_compat_l; [left; apply Rinv_0_lt_compat, pow_lt; lra|]. apply Rmult_le_compat_r; [left; apply Rinv_0_lt_compat, lt_0_INR; lia|]. apply total_le. exact H.
Qed.
Lemma product_pieces p p' r e U V : spline_pieces p r e U -> spline_pieces p' r e V -> spline_pieces (p + p') r e (fun i => mul (U i) (V i)).
Proof.
  intros (U1 & U2) (V1 & V2). split; [intros i Hi; apply mul_length; auto|]. intros i k Hi. apply (agree_mul r (U i) (V i) (U (S i)) (V (S i))); intros j Hj; [apply U2|apply V2]; assumption.
Qed.
Lemma weaker_pieces p p' r r' e U : (p <= p')%nat -> (r' <= r)%nat -> spline_pieces p r e U -> spline_pieces p' r' e U.
Proof. intros Hp Hr (U1 & U2). split; [intros i Hi; specialize (U1 i Hi); lia|]. intros i k Hi Hk. apply U2; lia. Qed.
Lemma derivative_pieces p r e U : (1 <= p)%nat -> spline_pieces p (S r) e U -> spline_pieces (p - 1) r e (fun i => derivative (U i)).
Proof. intros Hp (U1 & U2). split; [intros i Hi; rewrite derivative_length; specialize (U1 i Hi); lia|]. intros i k Hi Hk. apply (U2 i (S k) Hi). lia. Qed.
Lemma has_product e U V u v : has_pieces e U u -> has_pieces e V v -> has_pieces e (fun i => mul (U i) (V i)) (fun x => u x * v x).
Proof. intros H1 H2 i x Hi Hx. rewrite value_mul. rewrite (H1 i x Hi Hx), (H2 i x Hi Hx). reflexivity. Qed.
Lemma sizes_product a b c d x y : size a <= x * size c -> size b <= y * size d -> 0 <= x -> 0 <= y -> size (mul a b) <= x * y * (size c * size d).
Proof. intros H1 H2 Hx Hy. pose proof (size_mul a b). pose proof (size_nonneg a). pose proof (size_nonneg b). pose proof (size_nonneg c). pose proof (size_nonneg d). assert (size a * size b <= (x * size c) * (y * size d)) by (apply Rmult_le_compat; lra). lra. Qed.

Lemma galerkin d e meth : (2 <= d <= 4)%nat -> (1 <= e)%nat ->
  exists l, get_ggq d e meth = Some l /\
    forall U V, spline_pieces d (d - 1) e U -> spline_pieces d (d - 1) e V -> forall u v du dv,
      has_pieces e U u -> has_pieces e V v -> has_pieces e (fun i => derivative (U i)) du -> has_pieces e (fun i => derivative (V i)) dv -> forall F,
      let mean := total (fun i => size (U i) * size (V i)) e / INR e in
      (meth = Optimal -> antiderivative F (fun x => u x * v x) -> Rabs (quadrature (real_rule l) (fun x => u x * v x) - (F 1 - F 0)) <= / 10 ^ 13 * mean) /\
      (meth <> Reduced2 -> antiderivative F (fun x => u x * dv x) -> Rabs (quadrature (real_rule l) (fun x => u x * dv x) - (F 1 - F 0)) <= INR d * (/ 10 ^ 13 * mean)) /\
      (antiderivative F (fun x => du x * dv x) -> Rabs (quadrature (real_rule l) (fun x => du x * dv x) - (F 1 - F 0)) <= INR d ^ 2 * (/ 10 ^ 13 * mean)).
Proof.
  intros Hd He. destruct (ggq_rules_exact d e meth Hd He) as (l & El & H). exists l. split; [exact El|]. intros U V HU HV u v du dv Hu Hv Hdu Hdv F mean.
  assert (ND : 0 <= INR d) by apply pos_INR. replace (d - 1)%nat with (S (d - 2)) in HU, HV by lia.
  pose proof (weaker_pieces d d (S (d - 2)) (d - 2) e U ltac:(lia) ltac:(lia) HU) as HU0. pose proof (weaker_pieces d d (S (d - 2)) (d - 2) e V ltac:(lia) ltac:(lia) HV) as HV0.
  pose proof (derivative_pieces d (d - 2) e U ltac:(lia) HU) as HU1. pose proof (derivative_pieces d (d - 2) e V ltac:(lia) HV) as HV1.
  assert (SC : forall s f, s * (/ 10 ^ 13 * (total f e / INR e)) = / 10 ^ 13 * (total (fun i => s * f i) e / INR e)).
  { intros s f. assert (X : total (fun i => s * f i) e = s * total f e) by (clear; induction e as [|e IH]; cbn [total]; [ring|rewrite IH; ring]). rewrite X. unfold Rdiv. ring. }
  split; [|split].
  - intros -> HF. cbn [target fst snd] in H. unfold mean. eapply bound_le; [exact He| |].
    2:{ apply (H (fun i => mul (U i) (V i)) _ F); [|apply has_product; assumption|exact HF]. eapply weaker_pieces; [| |exact (product_pieces _ _ _ _ _ _ HU0 HV0)]; lia. }
    intros i _. cbv beta. apply size_mul.
  - intros Hm HF. unfold mean. rewrite SC. eapply bound_le; [exact He| |].
    2:{ apply (H (fun i => mul (U i) (derivative (V i))) _ F); [|apply (has_product e U (fun i => derivative (V i))); assumption|exact HF].
        eapply weaker_pieces; [| |exact (product_pieces _ _ _ _ _ _ HU0 HV1)]; destruct meth; cbn [target fst snd]; try congruence; lia. }
    intros i Hi. cbv beta. rewrite <- (Rmult_1_l (INR d)). apply sizes_product; [lra|apply size_derivative; apply HV; exact Hi|lra|exact ND].
  - intros HF. unfold mean. rewrite SC. eapply bound_le; [exact He| |].
    2:{ apply (H (fun i => mul (derivative (U i)) (derivative (V i))) _ F); [|apply (has_product e (fun i => derivative (U i)) (fun i => derivative (V i))); assumption|exact HF].
        eapply weaker_pieces; [| |exact (product_pieces _ _ _ _ _ _ HU1 HV1)]; destruct meth; cbn [target fst snd]; lia. }
    intros i Hi. cbv beta. replace (INR d ^ 2) with (INR d * INR d) by ring. apply sizes_product; [apply size_derivative; apply HU; exact Hi|apply size_derivative; apply HV; exact Hi|exact ND|exact ND].
Qed.
(** the entries of the mass matrix (Optimal), of the advection matrix (all but Reduced2) and of the stiffness matrix (every method) *)
Theorem C63_galerkin_integrals : forall d e meth, (2 <= d <= 4)%nat -> (1 <= e)%nat ->
  exists l, get_ggq d e meth = Some l /\
    forall U V, spline_pieces d (d - 1) e U -> spline_pieces d (d - 1) e V -> forall u v du dv,
      has_pieces e U u -> has_pieces e V v -> has_pieces e (fun i => derivative (U i)) du -> has_pieces e (fun i => derivative (V i)) dv -> forall F,
      let mean := total (fun i => size (U i) * size (V i)) e / INR e in
      (meth = Optimal -> antiderivative F (fun x => u x * v x) -> Rabs (quadrature (real_rule l) (fun x => u x * v x) - (F 1 - F 0)) <= / 10 ^ 13 * mean) /\
      (meth <> Reduced2 -> antiderivative F (fun x => u x * dv x) -> Rabs (quadrature (real_rule l) (fun x => u x * dv x) - (F 1 - F 0)) <= INR d * (/ 10 ^ 13 * mean)) /\
      (antiderivative F (fun x => du x * dv x) -> Rabs (quadrature (real_rule l) (fun x => du x * dv x) - (F 1 - F 0)) <= INR d ^ 2 * (/ 10 ^ 13 * mean)).
Proof. exact galerkin. Qed.
Print Assumptions C63_galerkin_integrals.

(** instance: a function with a kink at the knot, integrated by the rule on two spans *)
Lemma kink_derivative y : derivable_pt_lim (fun x => (2 * x - 1) * Rabs (2 * x - 1) / 4) y (Rabs (2 * y - 1)).
Proof.
  assert (D : forall x h, Rabs ((x + h) * Rabs (x + h) - x * Rabs x - 2 * Rabs x * h) <= h * h).
  { intros x h. unfold Rabs at 2 3 4. destruct (Rcase_abs (x + h)), (Rcase_abs x); apply Rabs_le; split; nra. }
  intros eps Heps. exists (mkposreal eps Heps). intros h Hh Hd. cbn [pos] in Hd. specialize (D (2 * y - 1) (2 * h)). replace (2 * (y + h) - 1) with (2 * y - 1 + 2 * h) by ring.
  set (a := 2 * y - 1) in *.
  replace (((a + 2 * h) * Rabs (a + 2 * h) / 4 - a * Rabs a / 4) / h - Rabs a) with (((a + 2 * h) * Rabs (a + 2 * h) - a * Rabs a - 2 * Rabs a * (2 * h)) * / (4 * h)) by (field; exact Hh).
  rewrite Rabs_mult, Rabs_inv, Rabs_mult, (Rabs_right 4) by lra. assert (Hp : 0 < Rabs h) by (apply Rabs_pos_lt; exact Hh).
  apply Rle_lt_trans with (2 * h * (2 * h) * / (4 * Rabs h)); [apply Rmult_le_compat_r; [left; apply Rinv_0_lt_compat; lra|exact D]|].
  replace (2 * h * (2 * h) * / (4 * Rabs h)) with (Rabs h); [exact Hd|]. replace (h * (2 * h)) with (2 * (h * h)) by ring. replace (2 * h * (2 * h)) with (4 * (Rabs h * Rabs h)); [field; lra|]. rewrite <- Rabs_mult, Rabs_right by nra. ring.
Qed.
Example C63_example : exists l, get_ggq 2 2 Optimal = Some l /\ Rabs (quadrature (real_rule l) (fun x => Rabs (2 * x - 1)) - / 2) <= / 10 ^ 12.
Proof.
  destruct (C63_ggq_rules_integrate_splines 2 2 Optimal ltac:(lia) ltac:(lia)) as (l & El & H). exists l. split; [exact El|].
  specialize (H (fun i => match i with O => [1; -1] | _ => [0; 1] end) (fun x => Rabs (2 * x - 1)) (fun x => (2 * x - 1) * Rabs (2 * x - 1) / 4)). cbv beta in H.
  replace ((2 * 1 - 1) * Rabs (2 * 1 - 1) / 4 - (2 * 0 - 1) * Rabs (2 * 0 - 1) / 4) with (/ 2) in H.
  2:{ replace (2 * 1 - 1) with 1 by ring. replace (2 * 0 - 1) with (-1) by ring. rewrite Rabs_R1, Rabs_left by lra. field. }
  eapply Rle_trans; [apply H|].
  - split; [intros [|i] _; cbn; lia|]. intros i k Hi Hk. cbn [target snd] in Hk. assert (i = 0 /\ k = 0)%nat as (-> & ->) by lia. cbn. ring.
  - intros i x Hi Hx. assert (i = 0 \/ i = 1)%nat as [-> | ->] by lia; cbn [INR] in *; cbn [value fold_right].
    + rewrite Rabs_left1 by lra. ring.
    + rewrite Rabs_right by lra. ring.
  - split; [|intros x _; apply kink_derivative]. intros x _. apply derivable_continuous_pt. exists (Rabs (2 * x - 1)). apply kink_derivative.
  - cbn [total size fold_right]. rewrite Rabs_R0, Rabs_R1, Rabs_left by lra. change (INR 2) with 2. replace (10 ^ 13) with (10 * 10 ^ 12) by (cbn [pow]; ring). rewrite Rinv_mult. assert (0 < / 10 ^ 12) by (apply Rinv_0_lt_compat, pow_lt; lra). lra.
Qed.
