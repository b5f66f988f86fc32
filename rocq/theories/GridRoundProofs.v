(** Cell boxes in double precision: monotone corners, exact common faces, error of the corners. *)
From Coq Require Import Reals ZArith Lra Lia Arith.
From Flocq Require Import Core Relative.
From Verif Require Import Geo GridModel GridSpec GridProofs GridGeoModel GridGeoSpec GridGeoProofs GridRoundModel.
Local Open Scope R_scope.

Local Instance double_exp_valid : Valid_exp double_exp. Proof. apply FLT_exp_valid. reflexivity. Qed.
Lemma fl_le x y : x <= y -> fl x <= fl y. Proof. apply round_le; typeclasses eauto. Qed.
Lemma fl_0 : fl 0 = 0. Proof. apply round_0. typeclasses eauto. Qed.
Lemma fl_id x : is_double x -> fl x = x. Proof. intros H. apply round_generic; [typeclasses eauto|exact H]. Qed.
Lemma fl_double x : is_double (fl x). Proof. apply generic_format_round; typeclasses eauto. Qed.
Lemma double_Z z : (Z.abs z <= 2 ^ 53)%Z -> is_double (IZR z).
Proof.
  intros H. destruct (Z.eq_dec (Z.abs z) (2 ^ 53)) as [E|N].
  - apply generic_format_FLT. exists (Float radix2 (z / 2) 1); cbn [Fnum Fexp].
    + unfold F2R. cbn [Fnum Fexp]. change (bpow radix2 1) with (IZR 2). rewrite <- mult_IZR. f_equal. assert (z = 2 ^ 53 \/ z = - 2 ^ 53)%Z as [-> | ->] by lia; reflexivity.
    + assert (z = 2 ^ 53 \/ z = - 2 ^ 53)%Z as [-> | ->] by lia; reflexivity.
    + lia.
  - apply generic_format_FLT. exists (Float radix2 z 0); cbn [Fnum Fexp]; [unfold F2R; cbn; lra| |lia]. change (radix2 ^ 53)%Z with (2 ^ 53)%Z. lia.
Qed.
Lemma to_double_exact n : (Z.of_nat n <= 2 ^ 53)%Z -> to_double n = INR n.
Proof. intros H. unfold to_double. rewrite INR_IZR_INZ. apply fl_id, double_Z. lia. Qed.
Lemma next_exact i : (Z.of_nat i < 2 ^ 53)%Z -> fl (1 + to_double i) = to_double (S i).
Proof.
  intros H. rewrite !to_double_exact by lia. rewrite S_INR, !INR_IZR_INZ, Rplus_comm, <- plus_IZR. apply fl_id, double_Z. lia.
Qed.

Section Axis.
Variable contract : bool.
Notation place := (place contract). Notation low := (low contract). Notation high := (high contract).
Lemma to_double_pos n : 0 <= to_double n. Proof. unfold to_double. rewrite <- fl_0. apply fl_le. rewrite <- INR_IZR_INZ. apply pos_INR. Qed.
Lemma delta_pos lb ub n : 0 <= delta_d lb ub n.
Proof. unfold delta_d. rewrite <- fl_0 at 1. apply fl_le. unfold Rdiv. apply Rmult_le_pos; [apply Rabs_pos|]. destruct (to_double_pos n) as [H|H]; [left; apply Rinv_0_lt_compat, H|rewrite <- H, Rinv_0; lra]. Qed.
Lemma place_le lb ub n x y : x <= y -> place lb ub n x <= place lb ub n y.
Proof. intros H. pose proof (Rmult_le_compat_l _ _ _ (delta_pos lb ub n) H) as M. unfold GridRoundModel.place. apply fl_le, Rplus_le_compat_l. destruct contract; [exact M|apply fl_le, M]. Qed.
Lemma to_double_le i j : (i <= j)%nat -> to_double i <= to_double j. Proof. intros H. unfold to_double. apply fl_le, IZR_le. lia. Qed.
Lemma low_le lb ub n i j : (i <= j)%nat -> low lb ub n i <= low lb ub n j. Proof. intros H. apply place_le, to_double_le, H. Qed.
Lemma high_low lb ub n i : (Z.of_nat i < 2 ^ 53)%Z -> high lb ub n i = low lb ub n (S i). Proof. intros H. unfold GridRoundModel.high. rewrite next_exact by exact H. reflexivity. Qed.
Lemma low_first lb ub n : is_double lb -> low lb ub n 0 = lb.
Proof. intros H. unfold GridRoundModel.low, GridRoundModel.place, to_double. cbn [Z.of_nat]. rewrite fl_0, Rmult_0_r, fl_0. replace (if contract then 0 else 0) with 0 by (destruct contract; reflexivity). rewrite Rplus_0_r. apply fl_id, H. Qed.

(** ** Errors. *)
Definition u : R := / 9007199254740992.
Lemma u_eq : / 2 * bpow radix2 (- (53) + 1) = u. Proof. unfold u. cbn. lra. Qed.
Lemma tiny_pos : 0 < bpow radix2 (-1074). Proof. apply bpow_gt_0. Qed.
Lemma fl_rel x : bpow radix2 (-1022) <= x -> Rabs (fl x - x) <= u * x.
Proof.
  intros H. pose proof (bpow_gt_0 radix2 (-1022)) as P. destruct (relative_error_N_FLT_ex radix2 (-1074) 53 ltac:(lia) (fun n => negb (Z.even n)) x) as (e & He & E). { rewrite Rabs_pos_eq by lra. exact H. }
  unfold fl, double_exp. rewrite E. rewrite u_eq in He. replace (x * (1 + e) - x) with (e * x) by ring. rewrite Rabs_mult, (Rabs_pos_eq x) by lra. apply Rmult_le_compat_r; lra.
Qed.
Lemma fl_abs x : Rabs (fl x - x) <= u * Rabs x + bpow radix2 (-1074).
Proof.
  destruct (error_N_FLT radix2 (-1074) 53 ltac:(lia) (fun n => negb (Z.even n)) x) as (e & eta & He & Heta & _ & E). unfold fl, double_exp. rewrite E. rewrite u_eq in He. replace (x * (1 + e) + eta - x) with (e * x + eta) by ring.
  eapply Rle_trans; [apply Rabs_triang|]. rewrite Rabs_mult. apply Rplus_le_compat; [apply Rmult_le_compat_r; [apply Rabs_pos|exact He]|]. pose proof tiny_pos. lra.
Qed.
Lemma small_bpow : bpow radix2 (-1074) <= u * bpow radix2 (-1000) /\ bpow radix2 (-1022) * 4 <= bpow radix2 (-1000).
Proof.
  split.
  - replace u with (bpow radix2 (-53)) by (unfold u; cbn; lra). rewrite <- bpow_plus. apply bpow_le. lia.
  - replace 4 with (bpow radix2 2) by (cbn; lra). rewrite <- bpow_plus. apply bpow_le. lia.
Qed.
(** The product of the cell size and the index. *)
Lemma product_error lb ub n i : lb < ub -> (0 < n)%nat -> (Z.of_nat n <= 2 ^ 53)%Z -> (i <= n)%nat -> bpow radix2 (-1000) <= (ub - lb) / INR n ->
  0 <= delta_d lb ub n <= 2 * (ub - lb) /\
  (forall c : bool, Rabs ((if c then delta_d lb ub n * to_double i else fl (delta_d lb ub n * to_double i)) - (ub - lb) / INR n * INR i) <= 32 / 10 * u * (ub - lb)).
Proof.
  intros L Hn Hb Hi Hh. unfold delta_d. rewrite !to_double_exact by lia.
  assert (N1 : 1 <= INR n) by (change 1 with (INR 1); apply le_INR; lia). assert (I0 : 0 <= INR i <= INR n) by (split; [apply pos_INR|apply le_INR, Hi]).
  set (W := ub - lb) in *. set (h := W / INR n) in *. destruct small_bpow as [S1 S2]. pose proof (bpow_gt_0 radix2 (-1000)) as P0. pose proof (bpow_gt_0 radix2 (-1022)) as P1.
  assert (WE : W = h * INR n) by (unfold h; field; lra). assert (WA : W <= Rabs lb + Rabs ub) by (unfold W; pose proof (Rle_abs ub); pose proof (Rle_abs (- lb)); rewrite Rabs_Ropp in *; lra).
  assert (hW : h <= W) by (rewrite WE; nra).
  (* the width *)
  pose proof (fl_rel W ltac:(lra)) as E1. apply Rabs_le_inv in E1. unfold u in E1. assert (F1 : 0 < fl W) by lra. rewrite (Rabs_pos_eq (fl W)) by lra.
  (* the cell size *)
  assert (B2 : (1 - u) * h <= fl W / INR n <= (1 + u) * h).
  { unfold u. split; apply (Rmult_le_reg_r (INR n)); try lra; unfold Rdiv; rewrite (Rmult_assoc (fl W)), Rinv_l, Rmult_1_r, Rmult_assoc, <- WE by lra; lra. }
  pose proof (fl_rel (fl W / INR n) ltac:(unfold u in B2; lra)) as E2. apply Rabs_le_inv in E2. set (d := fl (fl W / INR n)) in *. assert (D : (1 - 21 / 10 * u) * h <= d <= (1 + 21 / 10 * u) * h) by (unfold u in *; lra).
  (* the product *)
  set (t := h * INR i). assert (T : 0 <= t <= W) by (unfold t; split; [apply Rmult_le_pos; lra|rewrite WE; apply Rmult_le_compat_l; lra]).
  assert (B3 : (1 - 21 / 10 * u) * t <= d * INR i <= (1 + 21 / 10 * u) * t). { unfold t. rewrite <- !Rmult_assoc. split; apply Rmult_le_compat_r; lra. }
  split; [unfold u in *; lra|]. intros c. fold t. apply Rabs_le. destruct c; [unfold u in *; lra|]. destruct i as [|i].
    - change (INR 0) with 0 in *. rewrite Rmult_0_r, fl_0. unfold t. rewrite Rmult_0_r. unfold u. lra.
    - assert (I1 : 1 <= INR (S i)) by (change 1 with (INR 1); apply le_INR; lia). assert (h <= t) by (unfold t; rewrite <- (Rmult_1_r h) at 1; apply Rmult_le_compat_l; lra).
      pose proof (fl_rel (d * INR (S i)) ltac:(unfold u in *; lra)) as E3. apply Rabs_le_inv in E3. unfold u in *. lra.
Qed.
Lemma low_error lb ub n i : lb < ub -> (0 < n)%nat -> (Z.of_nat n <= 2 ^ 53)%Z -> (i <= n)%nat -> bpow radix2 (-1000) <= (ub - lb) / INR n ->
  Rabs (low lb ub n i - (lb + (ub - lb) / INR n * INR i)) <= 8 * u * (Rabs lb + Rabs ub).
Proof.
  intros L Hn Hb Hi Hh. pose proof (proj2 (product_error lb ub n i L Hn Hb Hi Hh) contract) as B4. unfold GridRoundModel.low, GridRoundModel.place. set (p := if contract then _ else _) in *. clearbody p.
  assert (N1 : 1 <= INR n) by (change 1 with (INR 1); apply le_INR; lia). assert (I0 : 0 <= INR i <= INR n) by (split; [apply pos_INR|apply le_INR, Hi]).
  set (W := ub - lb) in *. set (h := W / INR n) in *. destruct small_bpow as [S1 S2]. pose proof (bpow_gt_0 radix2 (-1000)) as P0.
  assert (WE : W = h * INR n) by (unfold h; field; lra). assert (WA : W <= Rabs lb + Rabs ub) by (unfold W; pose proof (Rle_abs ub); pose proof (Rle_abs (- lb)); rewrite Rabs_Ropp in *; lra).
  assert (hW : h <= W) by (rewrite WE; nra). set (t := h * INR i) in *. assert (T : 0 <= t <= W) by (unfold t; split; [apply Rmult_le_pos; lra|rewrite WE; apply Rmult_le_compat_l; lra]).
  (* the sum *)
  apply Rabs_le_inv in B4. pose proof (fl_abs (lb + p)) as E5. assert (A5 : Rabs (lb + p) <= Rabs lb + (1 + 32 / 10 * u) * W). { eapply Rle_trans; [apply Rabs_triang|]. apply Rplus_le_compat_l, Rabs_le. unfold u in *. lra. }
  assert (E6 : Rabs (fl (lb + p) - (lb + p)) <= u * (Rabs lb + (1 + 32 / 10 * u) * W) + u * h) by (unfold u in *; lra). apply Rabs_le_inv in E6. apply Rabs_le. pose proof (Rabs_pos lb). pose proof (Rabs_pos ub).
  assert (W0 : 0 < W) by lra. unfold u in *.
  assert (LB : Rabs lb + W <= 2 * (Rabs lb + Rabs ub)) by lra. lra.
Qed.
End Axis.
