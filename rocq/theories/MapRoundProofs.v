(** Proofs about the affine maps in double precision. *)
From Coq Require Import Reals ZArith Lia Lra.
From Flocq Require Import Core Relative.
From Verif Require Import Geo GgqModel MappingModel GridRoundModel GridRoundProofs ClipRoundProofs MapRoundModel.
Local Open Scope R_scope.

(** ** Relative errors of positive numbers. *)
Definition rel (e x y : R) : Prop := Rabs (x - y) <= e * y.
Definition normal (x : R) : Prop := bpow radix2 (-1022) <= x.
Lemma rel_round e x y : 0 < y -> rel e x y -> 0 <= e <= 1 / 1000 -> normal x -> rel (e + 1001 / 1000 * u) (fl x) y.
Proof.
  unfold rel, normal. intros Y H E N. pose proof u_small as U. pose proof (fl_rel x N) as F. apply Rabs_le_inv in H. apply Rabs_le_inv in F. assert (A : e * y <= 1 / 1000 * y) by (apply Rmult_le_compat_r; lra). assert (B : u * x <= u * (1001 / 1000 * y)) by (apply Rmult_le_compat_l; lra). apply Rabs_le. lra.
Qed.
Lemma rel_pos e x y : 0 < y -> rel e x y -> 0 <= e <= 1 / 1000 -> 999 / 1000 * y <= x <= 1001 / 1000 * y.
Proof. unfold rel. intros Y H E. apply Rabs_le_inv in H. assert (e * y <= 1 / 1000 * y) by (apply Rmult_le_compat_r; lra). lra. Qed.
Lemma rel_mult e f x y x' y' : 0 < y -> 0 < y' -> rel e x y -> rel f x' y' -> 0 <= e <= 1 / 1000 -> 0 <= f <= 1 / 1000 -> rel (e + f + e * f) (x * x') (y * y').
Proof.
  unfold rel. intros Y Y' H H' E F. replace (x * x' - y * y') with ((x - y) * (x' - y') + (x - y) * y' + y * (x' - y')) by ring.
  eapply Rle_trans; [apply Rabs_triang|]. pose proof (Rabs_triang ((x - y) * (x' - y')) ((x - y) * y')) as T. rewrite !Rabs_mult in *. rewrite (Rabs_pos_eq y), (Rabs_pos_eq y') in * by lra.
  pose proof (Rmult_le_compat _ _ _ _ (Rabs_pos _) (Rabs_pos _) H H'). pose proof (Rmult_le_compat_r y' _ _ ltac:(lra) H). pose proof (Rmult_le_compat_l y _ _ ltac:(lra) H'). lra.
Qed.
Lemma rel_div e f x y x' y' : 0 < y -> 0 < y' -> rel e x y -> rel f x' y' -> 0 <= e <= 1 / 1000 -> 0 <= f <= 1 / 1000 -> rel (1002 / 1000 * (e + f)) (x / x') (y / y').
Proof.
  intros Y Y' H H' E F. pose proof (rel_pos f x' y' Y' H' F) as P. unfold rel in *. replace (x / x' - y / y') with (((x - y) * y' - y * (x' - y')) / (x' * y')) by (field; lra).
  unfold Rdiv. rewrite Rabs_mult, Rabs_inv, (Rabs_pos_eq (x' * y')) by (apply Rmult_le_pos; lra). apply Rmult_le_reg_r with (x' * y'); [apply Rmult_lt_0_compat; lra|]. rewrite Rmult_assoc, Rinv_l, Rmult_1_r by (apply Rmult_integral_contrapositive_currified; lra).
  replace (1002 * / 1000 * (e + f) * (y * / y') * (x' * y')) with (1002 / 1000 * (e + f) * y * x') by (field; lra).
  assert (A : Rabs ((x - y) * y' - y * (x' - y')) <= (e + f) * y * y'). { eapply Rle_trans; [apply Rabs_triang|]. rewrite Rabs_Ropp, !Rabs_mult, (Rabs_pos_eq y), (Rabs_pos_eq y') by lra. pose proof (Rmult_le_compat_r y' _ _ ltac:(lra) H). pose proof (Rmult_le_compat_l y _ _ ltac:(lra) H'). lra. }
  eapply Rle_trans; [exact A|]. assert (0 <= (e + f) * y) by (apply Rmult_le_pos; lra). set (K := (e + f) * y) in *. assert (C : K * (999 / 1000 * y') <= K * x') by (apply Rmult_le_compat_l; lra). assert (D : 0 <= K * y') by (apply Rmult_le_pos; lra). replace (1002 / 1000 * (e + f) * y * x') with (1002 / 1000 * (K * x')) by (unfold K; ring). clearbody K. lra.
Qed.
Lemma rel_weak e f x y : 0 <= y -> e <= f -> rel e x y -> rel f x y. Proof. unfold rel. intros Y L H. pose proof (Rmult_le_compat_r y _ _ Y L). lra. Qed.
Lemma rel_refl x : 0 <= x -> rel 0 x x. Proof. intros H. unfold rel. rewrite Rminus_eq_0, Rabs_R0. lra. Qed.

(** ** The scale. *)
(** Widths of boxes that are neither tiny nor huge. *)
Definition width (b : box) (a : axis) : R := at_ a (upper b) - at_ a (lower b).
Definition sized (b : box) : Prop := forall a, bpow radix2 (-100) <= width b a <= bpow radix2 100.
Lemma normal_ge e x : (-1022 <= e)%Z -> bpow radix2 e <= x -> normal x. Proof. intros H L. unfold normal. eapply Rle_trans; [|exact L]. apply bpow_le, H. Qed.
Lemma half_bpow e x y : bpow radix2 e <= y -> 999 / 1000 * y <= x -> bpow radix2 (e - 1) <= x.
Proof. intros H L. replace (bpow radix2 (e - 1)) with (/ 2 * bpow radix2 e) by (unfold Zminus; rewrite bpow_plus; cbn; lra). pose proof (bpow_gt_0 radix2 e). lra. Qed.
Lemma width_rel b a : sized b -> rel (1001 / 1000 * u) (Rabs (fl (at_ a (upper b) - at_ a (lower b)))) (width b a) /\ 0 < width b a.
Proof.
  intros S. specialize (S a). fold (width b a). pose proof (bpow_gt_0 radix2 (-100)). assert (W : 0 < width b a) by lra. split; [|exact W]. rewrite Rabs_pos_eq by (rewrite <- fl_0; apply fl_le; lra). pose proof u_small.
  eapply rel_weak; [| |apply (rel_round 0); [exact W|apply rel_refl; lra|lra|]]; [lra|lra|]. apply (normal_ge (-100)); [lia|lra].
Qed.
Lemma ratio_bounds x y : bpow radix2 (-100) <= x <= bpow radix2 100 -> bpow radix2 (-100) <= y <= bpow radix2 100 -> bpow radix2 (-200) <= x / y <= bpow radix2 200.
Proof.
  intros X Y. pose proof (bpow_gt_0 radix2 (-100)). assert (I : bpow radix2 (-100) <= / y <= bpow radix2 100). { change (-100)%Z with (- (100))%Z. rewrite bpow_opp. replace (bpow radix2 100) with (/ bpow radix2 (-100)) at 2 by (rewrite <- bpow_opp; reflexivity). split; apply Rinv_le_contravar; lra. }
  change (-200)%Z with (-100 + -100)%Z. change 200%Z with (100 + 100)%Z. rewrite !bpow_plus. unfold Rdiv. split; apply Rmult_le_compat; lra.
Qed.
Lemma scale_rel from to a : sized from -> sized to -> rel (31 / 10 * u) (scale_d from to a) (width to a / width from a) /\ bpow radix2 (-200) <= width to a / width from a <= bpow radix2 200.
Proof.
  intros Sf St. destruct (width_rel from a Sf) as [Rf Pf]. destruct (width_rel to a St) as [Rt Pt]. pose proof u_small as U. pose proof (ratio_bounds _ _ (St a) (Sf a)) as B. split; [|exact B].
  assert (D := rel_div _ _ _ _ _ _ Pt Pf Rt Rf ltac:(lra) ltac:(lra)). assert (Q : 0 < width to a / width from a) by (apply Rdiv_lt_0_compat; assumption). pose proof (rel_pos _ _ _ Q D ltac:(lra)) as P.
  unfold scale_d. eapply rel_weak; [| |eapply rel_round; [exact Q|exact D|lra|]]; [lra|lra|]. eapply (normal_ge (-200 - 1)); [lia|]. eapply half_bpow; [apply B|apply P].
Qed.

(** ** The determinant and weights. *)
Lemma det_rel b : sized (eb_global b) -> sized (eb_param b) -> rel (12 * u) (det_j_d b) (width (eb_global b) AX / width (eb_param b) AX * (width (eb_global b) AY / width (eb_param b) AY) * (width (eb_global b) AZ / width (eb_param b) AZ)) /\
  bpow radix2 (-600) <= width (eb_global b) AX / width (eb_param b) AX * (width (eb_global b) AY / width (eb_param b) AY) * (width (eb_global b) AZ / width (eb_param b) AZ) <= bpow radix2 600.
Proof.
  intros Sg Sp. destruct (scale_rel (eb_param b) (eb_global b) AX Sp Sg) as [Rx Bx]. destruct (scale_rel (eb_param b) (eb_global b) AY Sp Sg) as [Ry By]. destruct (scale_rel (eb_param b) (eb_global b) AZ Sp Sg) as [Rz Bz].
  set (x := width (eb_global b) AX / _) in *. set (y := width (eb_global b) AY / _) in *. set (z := width (eb_global b) AZ / _) in *. pose proof u_small as U. pose proof (bpow_gt_0 radix2 (-200)) as P2.
  assert (UU : u * u <= 1 / 1000000 * u) by (apply Rmult_le_compat_r; lra). assert (X : 0 < x) by lra. assert (Y : 0 < y) by lra. assert (Z : 0 < z) by lra. assert (XY : 0 < x * y) by (apply Rmult_lt_0_compat; assumption).
  assert (Bxy : bpow radix2 (-400) <= x * y <= bpow radix2 400). { change (-400)%Z with (-200 + -200)%Z. change 400%Z with (200 + 200)%Z. rewrite !bpow_plus. split; apply Rmult_le_compat; lra. } pose proof (bpow_gt_0 radix2 (-400)) as P4.
  assert (Bxyz : bpow radix2 (-600) <= x * y * z <= bpow radix2 600). { change (-600)%Z with (-400 + -200)%Z. change 600%Z with (400 + 200)%Z. rewrite !bpow_plus. split; apply Rmult_le_compat; lra. }
  split; [|exact Bxyz]. pose proof (rel_mult _ _ _ _ _ _ X Y Rx Ry ltac:(lra) ltac:(lra)) as M1. apply (rel_weak _ (63 / 10 * u)) in M1; [|lra|lra].
  assert (R1 : rel (73 / 10 * u + 1 / 100 * u) (fl (scale_d (eb_param b) (eb_global b) AX * scale_d (eb_param b) (eb_global b) AY)) (x * y)).
  { eapply rel_weak; [| |eapply rel_round; [exact XY|exact M1|lra|]]; [lra|lra|]. eapply (normal_ge (-400 - 1)); [lia|]. eapply half_bpow; [apply Bxy|eapply rel_pos; [exact XY|exact M1|lra]]. }
  assert (XYZ : 0 < x * y * z) by (apply Rmult_lt_0_compat; assumption). pose proof (rel_mult _ _ _ _ _ _ XY Z R1 Rz ltac:(lra) ltac:(lra)) as M2. apply (rel_weak _ (105 / 10 * u)) in M2; [|lra|lra].
  unfold det_j_d. eapply rel_weak; [| |eapply rel_round; [exact XYZ|exact M2|lra|]]; [lra|lra|]. eapply (normal_ge (-600 - 1)); [lia|]. eapply half_bpow; [apply Bxyz|eapply rel_pos; [exact XYZ|exact M2|lra]].
Qed.

(** ** The map of one coordinate. *)
Section Map.
Variable contract : bool.
Notation coord_d := (coord_d contract).
Lemma scale_pos from to a : 0 <= scale_d from to a.
Proof. unfold scale_d. rewrite <- fl_0. apply fl_le. unfold Rdiv. apply Rmult_le_pos; [apply Rabs_pos|]. set (x := Rabs _). assert (H : 0 <= x) by apply Rabs_pos. destruct H as [H|H]; [left; apply Rinv_0_lt_compat, H|rewrite <- H, Rinv_0; lra]. Qed.
Lemma coord_le from to a x y : x <= y -> coord_d from to a x <= coord_d from to a y.
Proof.
  intros H. assert (L : fl (x - at_ a (lower from)) <= fl (y - at_ a (lower from))) by (apply fl_le; lra). pose proof (Rmult_le_compat_r _ _ _ (scale_pos from to a) L) as M. unfold MapRoundModel.coord_d. apply fl_le, Rplus_le_compat_r. destruct contract; [exact M|apply fl_le, M].
Qed.
Lemma coord_lower from to a : is_double (at_ a (lower to)) -> coord_d from to a (at_ a (lower from)) = at_ a (lower to).
Proof.
  intros D. unfold MapRoundModel.coord_d. rewrite Rminus_eq_0, fl_0, Rmult_0_l, fl_0. replace (if contract then 0 else 0) with 0 by (destruct contract; reflexivity). rewrite Rplus_0_l. apply fl_id, D.
Qed.
Lemma coord_error from to a x : sized from -> sized to -> Rabs (x - at_ a (lower from)) <= 2 * width from a ->
  Rabs (coord_d from to a x - ((x - at_ a (lower from)) * (width to a / width from a) + at_ a (lower to))) <= 16 * u * (Rabs (at_ a (lower to)) + Rabs (at_ a (upper to))).
Proof.
  intros Sf St H. destruct (scale_rel from to a Sf St) as [Rs Bs]. destruct (width_rel from a Sf) as [_ Pf]. destruct (width_rel to a St) as [_ Pt]. pose proof u_small as U. set (D := x - at_ a (lower from)) in *. set (F := width from a) in *. set (W := width to a) in *. set (s := scale_d from to a) in *.
  pose proof (Sf a) as Wf. fold F in Wf. pose proof (St a) as Wt. fold W in Wt. pose proof (bpow_gt_0 radix2 (-100)) as P1. assert (UU : u * u <= 1 / 1000000 * u) by (apply Rmult_le_compat_r; lra).
  assert (Lf : bpow radix2 (-1000) <= 2 * F). { apply Rle_trans with (bpow radix2 (-100)); [apply bpow_le; lia|lra]. } pose proof (fl_rel_abs D (2 * F) H Lf) as E1. assert (Q : 0 < W / F) by (apply Rdiv_lt_0_compat; assumption). pose proof (rel_pos _ _ _ Q Rs ltac:(lra)) as Ps. unfold rel in Rs. set (d := fl D) in *.
  assert (FW : F * (W / F) = W) by (field; lra).
  assert (Pr : Rabs (d * s - D * (W / F)) <= 9 * (u * W)).
  { replace (d * s - D * (W / F)) with ((d - D) * s + D * (s - W / F)) by ring. eapply Rle_trans; [apply Rabs_triang|]. rewrite !Rabs_mult, (Rabs_pos_eq s) by lra. assert (A : Rabs (d - D) * s <= 11 / 10 * u * (2 * F) * (1001 / 1000 * (W / F))) by (apply Rmult_le_compat; try apply Rabs_pos; lra). assert (B : Rabs D * Rabs (s - W / F) <= 2 * F * (31 / 10 * u * (W / F))) by (apply Rmult_le_compat; try apply Rabs_pos; lra).
    replace (11 / 10 * u * (2 * F) * (1001 / 1000 * (W / F))) with (22022 / 10000 * (u * W)) in A by (rewrite <- FW at 1; field; lra). replace (2 * F * (31 / 10 * u * (W / F))) with (62 / 10 * (u * W)) in B by (rewrite <- FW at 1; field; lra). assert (0 <= u * W) by (apply Rmult_le_pos; lra). lra. }
  assert (UW : 0 <= u * W) by (apply Rmult_le_pos; lra). assert (UW' : u * W <= 1 / 1000000 * W) by (apply Rmult_le_compat_r; lra). assert (UUW : u * (u * W) <= 1 / 1000000 * (u * W)) by (apply Rmult_le_compat_r; lra).
  assert (DW : Rabs (D * (W / F)) <= 2 * W). { rewrite Rabs_mult, (Rabs_pos_eq (W / F)) by lra. replace (2 * W) with (2 * F * (W / F)) by (rewrite <- FW at 2; ring). apply Rmult_le_compat_r; lra. }
  assert (DS : Rabs (d * s) <= 201 / 100 * W). { replace (d * s) with (D * (W / F) + (d * s - D * (W / F))) by ring. eapply Rle_trans; [apply Rabs_triang|]. lra. }
  assert (Lw : bpow radix2 (-1000) <= 201 / 100 * W). { apply Rle_trans with (bpow radix2 (-100)); [apply bpow_le; lia|lra]. } pose proof (fl_rel_abs (d * s) (201 / 100 * W) DS Lw) as E2.
  assert (P3 : Rabs ((if contract then d * s else fl (d * s)) - D * (W / F)) <= 1122 / 100 * (u * W)). { destruct contract; [lra|]. replace (fl (d * s) - D * (W / F)) with ((fl (d * s) - d * s) + (d * s - D * (W / F))) by ring. eapply Rle_trans; [apply Rabs_triang|]. lra. }
  unfold MapRoundModel.coord_d. fold D d s. set (w := if contract then _ else _) in *. set (A := Rabs (at_ a (lower to)) + Rabs (at_ a (upper to))).
  assert (WA : W <= A). { unfold W, A, width. pose proof (Rle_abs (at_ a (upper to))). pose proof (Rle_abs (- at_ a (lower to))) as N. rewrite Rabs_Ropp in N. lra. } pose proof (Rabs_pos (at_ a (upper to))).
  assert (Sw : Rabs (w + at_ a (lower to)) <= 302 / 100 * A). { replace (w + at_ a (lower to)) with (D * (W / F) + (w - D * (W / F)) + at_ a (lower to)) by ring. eapply Rle_trans; [apply Rabs_triang|]. pose proof (Rabs_triang (D * (W / F)) (w - D * (W / F))). unfold A in *. lra. }
  assert (La : bpow radix2 (-1000) <= 302 / 100 * A). { apply Rle_trans with (bpow radix2 (-100)); [apply bpow_le; lia|lra]. } pose proof (fl_rel_abs _ _ Sw La) as E3.
  replace (fl (w + at_ a (lower to)) - (D * (W / F) + at_ a (lower to))) with ((fl (w + at_ a (lower to)) - (w + at_ a (lower to))) + (w - D * (W / F))) by ring. eapply Rle_trans; [apply Rabs_triang|]. assert (u * W <= u * A) by (apply Rmult_le_compat_l; lra). lra.
Qed.
End Map.
