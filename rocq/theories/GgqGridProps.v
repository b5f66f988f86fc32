(** C69: the points that ComputeVolume gives to the full elements integrate products of splines over the union of these elements. *)
From Coq Require Import Reals QArith Qreals List Arith NArith ZArith Bool Lra Lia Psatz Permutation.
From Verif Require Import Geo GridModel GridSpec GridProofs GridGeoModel GridGeoProofs BoxModel BoxSpec BoxProofs BoxProps GgqModel GgqProofs GgqProps SplineSpec Ggq1dModel Ggq1dSpec Ggq1dProps SplineProducts GgqExactRules GgqExactProps
  GgqLast GgqGridSpec GgqGrid1d TrimmedQuadLemmas MeshModel MeshProofs MeshGeoModel MeshGeoProofs MeshBoxProofs MeshSumProofs TrimmedQuadModel GeoQueryModel TrimSearchModel GridStoreModel VolumeModel VolumeSpec VolumeProofs TrimmedQuadWitness ContourWitness TrimSearchProps VolumeWitness VolumeExample VolumeProps GgqGridProofs.
Import ListNotations.
Local Open Scope R_scope.

(** The sum over all points of all full elements of weight times function value is the integral over all cells inside, up to the stated
    error, for every product of three splines of the target space of the rule (degree and continuity in each direction of its own).
    P: coefficients of the splines in the cells; B: bounds of their size; G: antiderivatives. *)
Theorem C69_spline_integrals : forall oc se gi cls junk src chunks order inf s m o P g G B, let n := num_elements (gi_grid gi) in let w a := delta (gi_grid gi) (gi_uvw gi) a in
  grid_ok (gi_grid gi) -> box_ok (gi_uvw gi) -> gi_bspline gi = true ->
  se_method se = UseGgq m -> se_order se = (o AX, o AY, o AZ) -> (forall a, (2 <= o a <= 4)%nat) ->
  no_wrap (gi_grid gi) (full_cell cls n) -> (forall a, w a > / 10 ^ 10) ->
  (N.of_nat (length (active_indices cls n)) < 2 ^ 31)%N -> Permutation order (iterations gi cls) ->
  compute_volume oc se gi cls junk src chunks order = Ok (inf, s) ->
  (forall a, grid_spline (fst (target (o a) m)) (snd (target (o a) m)) (n_at a (gi_grid gi)) (at_ a (lower (gi_uvw gi))) (at_ a (upper (gi_uvw gi))) (P a) (g a)) ->
  (forall a k, (k < n_at a (gi_grid gi))%nat -> size (P a k) <= B a) ->
  (forall a, antiderivative_on (at_ a (lower (gi_uvw gi))) (at_ a (upper (gi_uvw gi))) (G a) (g a)) ->
  Rabs (sum (fun e => sum (fun q => ip_weight q * product g (ip_pos q)) (co_points (e_data e))) (st_untrimmed s) - sum (fun i => box_integral G (box_uvw gi i)) (cells_of Inside cls n)) <=
    B AX * B AY * B AZ * ((1 + axis_error (w AX)) * (1 + axis_error (w AY)) * (1 + axis_error (w AZ)) - 1) * sum (fun i => box_volume (box_uvw gi i)) (cells_of Inside cls n).
Proof.
  intros oc se gi cls junk src chunks order inf s m o P g G B n w Hg Hb Hs Em Eo Ho Hw Hd Ha Pm H Sp Sz An.
  assert (Hd' : forall a, delta (gi_grid gi) (gi_uvw gi) a > 100 * eps3) by (intros a; specialize (Hd a); unfold w in Hd; replace (100 * eps3) with (/ 10 ^ 10) by (unfold eps3; field); exact Hd).
  exact (grid_splines gi se m o Hg Hb Hs Eo Ho Hd' P g G B Sp Sz An cls Hw Em oc junk src chunks order inf s Ha Pm H).
Qed.
Print Assumptions C69_spline_integrals.

(** In particular (method GGQ_Optimal) the entries of the mass matrix: products of two functions that are, in each direction, splines of
    the polynomial order of the settings with the continuity of B-splines on this grid. *)
Theorem C69_mass_matrix : forall oc se gi cls junk src chunks order inf s o U V u v G Bu Bv, let n := num_elements (gi_grid gi) in let w a := delta (gi_grid gi) (gi_uvw gi) a in
  grid_ok (gi_grid gi) -> box_ok (gi_uvw gi) -> gi_bspline gi = true ->
  se_method se = UseGgq Optimal -> se_order se = (o AX, o AY, o AZ) -> (forall a, (2 <= o a <= 4)%nat) ->
  no_wrap (gi_grid gi) (full_cell cls n) -> (forall a, w a > / 10 ^ 10) ->
  (N.of_nat (length (active_indices cls n)) < 2 ^ 31)%N -> Permutation order (iterations gi cls) ->
  compute_volume oc se gi cls junk src chunks order = Ok (inf, s) ->
  (forall a, grid_spline (o a) (o a - 1) (n_at a (gi_grid gi)) (at_ a (lower (gi_uvw gi))) (at_ a (upper (gi_uvw gi))) (U a) (u a)) ->
  (forall a, grid_spline (o a) (o a - 1) (n_at a (gi_grid gi)) (at_ a (lower (gi_uvw gi))) (at_ a (upper (gi_uvw gi))) (V a) (v a)) ->
  (forall a k, (k < n_at a (gi_grid gi))%nat -> size (U a k) <= Bu a /\ size (V a k) <= Bv a) ->
  (forall a, antiderivative_on (at_ a (lower (gi_uvw gi))) (at_ a (upper (gi_uvw gi))) (G a) (fun x => u a x * v a x)) ->
  Rabs (sum (fun e => sum (fun q => ip_weight q * (product u (ip_pos q) * product v (ip_pos q))) (co_points (e_data e))) (st_untrimmed s) - sum (fun i => box_integral G (box_uvw gi i)) (cells_of Inside cls n)) <=
    Bu AX * Bv AX * (Bu AY * Bv AY) * (Bu AZ * Bv AZ) * ((1 + axis_error (w AX)) * (1 + axis_error (w AY)) * (1 + axis_error (w AZ)) - 1) * sum (fun i => box_volume (box_uvw gi i)) (cells_of Inside cls n).
Proof.
  intros oc se gi cls junk src chunks order inf s o U V u v G Bu Bv n w Hg Hb Hs Em Eo Ho Hw Hd Ha Pm H Su Sv Sz An.
  assert (K := C69_spline_integrals oc se gi cls junk src chunks order inf s Optimal o (fun a k => mul (U a k) (V a k)) (fun a x => u a x * v a x) G (fun a => Bu a * Bv a) Hg Hb Hs Em Eo Ho Hw Hd Ha Pm H).
  cbv zeta in K. rewrite (sum_ext (fun e => sum (fun q => ip_weight q * (product u (ip_pos q) * product v (ip_pos q))) (co_points (e_data e))) (fun e => sum (fun q => ip_weight q * product (fun a x => u a x * v a x) (ip_pos q)) (co_points (e_data e)))).
  2:{ intros e _. apply sum_ext. intros q _. unfold product. ring. }
  apply K; [| |exact An].
  - intros a. destruct (Su a) as (U1 & U2), (Sv a) as (V1 & V2). cbn [target fst snd]. split.
    + replace (2 * o a)%nat with (o a + o a)%nat by lia. apply (weaker_pieces (o a + o a) (o a + o a) (o a - 1) (o a - 2)); [lia|lia|]. apply product_pieces; assumption.
    + intros k t Hk Ht. rewrite value_mul, U2, V2 by assumption. reflexivity.
  - intros a k Hk. destruct (Sz a k Hk) as (S1 & S2). eapply Rle_trans; [apply (sizes_product (U a k) (V a k) (U a k) (V a k) 1 1); try lra|]. rewrite !Rmult_1_l. apply Rmult_le_compat; auto using GgqExactRules.size_nonneg.
Qed.
Print Assumptions C69_mass_matrix.

(** The assumption about the rules in C67 holds whenever the cells are not tiny. *)
Theorem C69_rules_fit : forall se gi cls m, let n := num_elements (gi_grid gi) in
  grid_ok (gi_grid gi) -> box_ok (gi_uvw gi) -> gi_bspline gi = true -> se_method se = UseGgq m -> (let '(a, b, c) := se_order se in 2 <= a <= 4 /\ 2 <= b <= 4 /\ 2 <= c <= 4)%nat ->
  no_wrap (gi_grid gi) (full_cell cls n) -> (forall a, delta (gi_grid gi) (gi_uvw gi) a > / 10 ^ 10) -> ggq_guard se gi cls.
Proof.
  intros se gi cls m n Hg Hb Hs Em Eo Hw Hd. destruct (se_order se) as [[a b] c] eqn:E. apply (guard_holds gi se m (fun x => match x with AX => a | AY => b | AZ => c end)); auto.
  - intros []; tauto.
  - intros x. specialize (Hd x). replace (100 * eps3) with (/ 10 ^ 10) by (unfold eps3; field). exact Hd.
Qed.
Print Assumptions C69_rules_fit.

(** *** Examples *)
(** The function |x - 2| |y - 2| |z - 2| with kinks at knots, integrated over two cells of a grid with 64 cells. *)
Definition kink_pieces (k : nat) : list R := match k with O => [2; -1] | 1%nat => [1; -1] | 2%nat => [0; 1] | _ => [1; 1] end.
Lemma kink_two y : derivable_pt_lim (fun x => (x - 2) * Rabs (x - 2) / 2) y (Rabs (y - 2)).
Proof.
  assert (D : forall x h, Rabs ((x + h) * Rabs (x + h) - x * Rabs x - 2 * Rabs x * h) <= h * h).
  { intros x h. unfold Rabs at 2 3 4. destruct (Rcase_abs (x + h)), (Rcase_abs x); apply Rabs_le; split; nra. }
  intros eps Heps. exists (mkposreal eps Heps). intros h Hh Hd. cbn [pos] in Hd. specialize (D (y - 2) h). replace (y + h - 2) with (y - 2 + h) by ring. set (a := y - 2) in *.
  replace (((a + h) * Rabs (a + h) / 2 - a * Rabs a / 2) / h - Rabs a) with (((a + h) * Rabs (a + h) - a * Rabs a - 2 * Rabs a * h) * / (2 * h)) by (field; exact Hh).
  rewrite Rabs_mult, Rabs_inv, Rabs_mult, (Rabs_right 2) by lra. assert (Hp : 0 < Rabs h) by (apply Rabs_pos_lt; exact Hh).
  apply Rle_lt_trans with (h * h * / (2 * Rabs h)); [apply Rmult_le_compat_r; [left; apply Rinv_0_lt_compat; lra|exact D]|].
  replace (h * h) with (Rabs h * Rabs h) by (rewrite <- Rabs_mult, Rabs_right by nra; ring). replace (Rabs h * Rabs h * / (2 * Rabs h)) with (Rabs h / 2) by (field; lra). lra.
Qed.
Lemma kink_spline lo up n : lo = 0 -> up = 4 -> n = 4%nat -> grid_spline 4 0 n lo up kink_pieces (fun x => Rabs (x - 2)).
Proof.
  intros -> -> ->. split; [split|].
  - intros k Hk. destruct k as [|[|[|[|k]]]]; cbn; lia.
  - intros k j Hk Hj. assert (j = 0)%nat as -> by lia. destruct k as [|[|[|[|k]]]]; cbn; try ring; lia.
  - intros k t Hk Ht. replace (0 + (4 - 0) / INR 4 * (INR k + t) - 2) with (INR k + t - 2) by (cbn [INR]; field). destruct k as [|[|[|[|k]]]]; try lia; cbn [INR kink_pieces SplineSpec.value fold_right].
    + rewrite Rabs_left1 by lra. ring.
    + rewrite Rabs_left1 by lra. ring.
    + rewrite Rabs_right by lra. ring.
    + rewrite Rabs_right by lra. ring.
Qed.
Example C69_example : exists junk inf s, let n := num_elements (gi_grid ex_gi) in let G := fun (_ : axis) x => (x - 2) * Rabs (x - 2) / 2 in let g := fun (_ : axis) x => Rabs (x - 2) in
  compute_volume one_oracles ggq_settings ex_gi two_inside junk small_box [omp_indices small_box] [22; 21]%nat = Ok (inf, s) /\
  se_method ggq_settings = UseGgq Optimal /\ se_order ggq_settings = (2, 2, 2)%nat /\ no_wrap (gi_grid ex_gi) (full_cell two_inside n) /\ (forall a, delta (gi_grid ex_gi) (gi_uvw ex_gi) a > / 10 ^ 10) /\
  (forall a, grid_spline (fst (target 2 Optimal)) (snd (target 2 Optimal)) (n_at a (gi_grid ex_gi)) (at_ a (lower (gi_uvw ex_gi))) (at_ a (upper (gi_uvw ex_gi))) kink_pieces (g a)) /\
  (forall a k, (k < n_at a (gi_grid ex_gi))%nat -> size (kink_pieces k) <= 3) /\ (forall a, antiderivative_on (at_ a (lower (gi_uvw ex_gi))) (at_ a (upper (gi_uvw ex_gi))) (G a) (g a)) /\
  Rabs (sum (fun e => sum (fun q => ip_weight q * product g (ip_pos q)) (co_points (e_data e))) (st_untrimmed s) - 1 / 4) <= / 10 ^ 6.
Proof.
  destruct two_volume as (junk & inf & s & E & T & L). exists junk, inf, s. intros n G g. split; [exact E|]. split; [reflexivity|]. split; [reflexivity|].
  assert (Hw : no_wrap (gi_grid ex_gi) (full_cell two_inside n)) by (apply two_guard). split; [exact Hw|].
  assert (P10 : 1 > / 10 ^ 10) by (rewrite <- Rinv_1 at 1; apply Rinv_lt_contravar; lra).
  assert (Hd : forall a, delta (gi_grid ex_gi) (gi_uvw ex_gi) a > / 10 ^ 10) by (intros a; rewrite ex_delta; exact P10). split; [exact Hd|].
  assert (Sp : forall a, grid_spline (fst (target 2 Optimal)) (snd (target 2 Optimal)) (n_at a (gi_grid ex_gi)) (at_ a (lower (gi_uvw ex_gi))) (at_ a (upper (gi_uvw ex_gi))) kink_pieces (g a)) by (intros []; apply kink_spline; reflexivity).
  split; [exact Sp|]. assert (Sz : forall (a : axis) k, (k < n_at a (gi_grid ex_gi))%nat -> size (kink_pieces k) <= 3).
  { intros a k _. destruct k as [|[|[|k]]]; cbn [kink_pieces size fold_right]; rewrite ?Rabs_R0, ?Rabs_R1, ?(Rabs_left (-1)), ?(Rabs_right 2) by lra; lra. }
  split; [exact Sz|]. assert (An : forall a, antiderivative_on (at_ a (lower (gi_uvw ex_gi))) (at_ a (upper (gi_uvw ex_gi))) (G a) (g a)).
  { intros a. split; [|intros x _; apply kink_two]. intros x _. apply derivable_continuous_pt. exists (Rabs (x - 2)). apply kink_two. }
  split; [exact An|]. assert (Hg : grid_ok (gi_grid ex_gi)) by (repeat constructor). assert (Hb : box_ok (gi_uvw ex_gi)) by (intros []; cbn; lra).
  assert (K := C69_spline_integrals one_oracles ggq_settings ex_gi two_inside junk small_box [omp_indices small_box] [22; 21]%nat inf s Optimal (fun _ => 2%nat) (fun _ => kink_pieces) g G (fun _ => 3)
    Hg Hb eq_refl eq_refl eq_refl (fun _ => conj (le_n 2) (le_S _ _ (le_S _ _ (le_n 2)))) Hw Hd eq_refl (perm_swap _ _ _) E Sp Sz An). cbv zeta in K.
  assert (Ec : cells_of Inside two_inside (num_elements (gi_grid ex_gi)) = [21; 22]%nat) by (vm_compute; reflexivity). rewrite Ec, !ex_delta in K. cbn [sum] in K.
  assert (B21 : forall a, at_ a (lower (box_uvw ex_gi 21)) = 1 /\ at_ a (upper (box_uvw ex_gi 21)) = 2).
  { intros a. change (box_uvw ex_gi 21) with (cell_box (gi_grid ex_gi) (gi_uvw ex_gi) (C3 1 1 1)). rewrite cell_lower, cell_upper, ex_delta. destruct a; cbn; lra. }
  assert (B22 : forall a, at_ a (lower (box_uvw ex_gi 22)) = (match a with AX => 2 | _ => 1 end) /\ at_ a (upper (box_uvw ex_gi 22)) = match a with AX => 3 | _ => 2 end).
  { intros a. change (box_uvw ex_gi 22) with (cell_box (gi_grid ex_gi) (gi_uvw ex_gi) (C3 2 1 1)). rewrite cell_lower, cell_upper, ex_delta. destruct a; cbn; lra. }
  unfold box_integral, box_volume in K. destruct (B21 AX) as (a1 & a2), (B21 AY) as (a3 & a4), (B21 AZ) as (a5 & a6), (B22 AX) as (b1 & b2), (B22 AY) as (b3 & b4), (B22 AZ) as (b5 & b6). cbn [at_] in *.
  rewrite a1, a2, a3, a4, a5, a6, b1, b2, b3, b4, b5, b6 in K. unfold G in K. replace (3 - 2) with 1 in K by ring. replace (2 - 2) with 0 in K by ring. replace (1 - 2) with (-1) in K by ring. rewrite Rabs_R0, Rabs_R1, (Rabs_left (-1)) in K by lra.
  match type of K with Rabs (?x - ?y) <= ?z => replace y with (1 / 4) in K by field; eapply Rle_trans; [exact K|] end.
  unfold axis_error. assert (T1 : 0 <= / 10 ^ 13 + / 10 ^ 9 / 1 <= 2 * / 10 ^ 9).
  { assert (0 < / 10 ^ 13) by (apply Rinv_0_lt_compat, pow_lt; lra). assert (/ 10 ^ 13 <= / 10 ^ 9) by (apply Rinv_le_contravar; [apply pow_lt; lra|apply Rle_pow; [lra|lia]]). unfold Rdiv. rewrite Rinv_1. lra. }
  set (t := / 10 ^ 13 + / 10 ^ 9 / 1) in *. clearbody t. replace (/ 10 ^ 6) with (1000 * / 10 ^ 9) by field. assert (T2 : / 10 ^ 9 <= / 1000) by (apply Rinv_le_contravar; lra).
  set (c := / 10 ^ 9) in *. clearbody c. clear - T1 T2. nra.
Qed.
