(** Property C45: the maps between global and parametric space. *)
From Coq Require Import Reals Lra Psatz.
From Verif Require Import Geo GgqModel MappingModel.
Local Open Scope R_scope.

(** ** specification vocabulary *)
Definition bounds_ok (b : ebounds) : Prop := box_ok (eb_global b) /\ box_ok (eb_param b).
Definition side (b : box) (a : axis) : R := at_ a (upper b) - at_ a (lower b).
Definition sub (p q : pt) : pt := Pt (px p - px q) (py p - py q) (pz p - pz q).
Definition cross (u v : pt) : pt :=
  Pt (py u * pz v - pz u * py v) (pz u * px v - px u * pz v) (px u * py v - py u * px v).
Definition scaled (c : R) (p : pt) : pt := Pt (c * px p) (c * py p) (c * pz p).

(** ** proofs *)
Lemma side_pos b a : box_ok b -> side b a > 0.
Proof. intros H. specialize (H a). unfold side. lra. Qed.
Lemma scale_eq from to a : box_ok from -> box_ok to -> at_ a (compute_scale from to) = side to a / side from a.
Proof.
  intros Hf Ht. pose proof (side_pos from a Hf). pose proof (side_pos to a Ht). unfold side in *.
  destruct a; simpl in *; rewrite !Rabs_right by lra; reflexivity.
Qed.
Lemma to_parametric_at p b a : bounds_ok b ->
  at_ a (to_parametric p b) = (at_ a p - at_ a (lower (eb_global b))) * (side (eb_param b) a / side (eb_global b) a) + at_ a (lower (eb_param b)).
Proof. intros (Hg & Hp). rewrite <- scale_eq by assumption. destruct a; reflexivity. Qed.
Lemma to_global_at p b a : bounds_ok b ->
  at_ a (to_global p b) = (at_ a p - at_ a (lower (eb_param b))) * (side (eb_global b) a / side (eb_param b) a) + at_ a (lower (eb_global b)).
Proof. intros (Hg & Hp). rewrite <- scale_eq by assumption. destruct a; reflexivity. Qed.
Lemma det_j_eq b : bounds_ok b -> det_j b = box_volume (eb_global b) / box_volume (eb_param b).
Proof.
  intros (Hg & Hp). unfold det_j. pose proof (scale_eq (eb_param b) (eb_global b)) as E.
  pose proof (E AX Hp Hg) as E1. pose proof (E AY Hp Hg) as E2. pose proof (E AZ Hp Hg) as E3. simpl in *. unfold at_ in *.
  rewrite E1, E2, E3. pose proof (side_pos _ AX Hp). pose proof (side_pos _ AY Hp). pose proof (side_pos _ AZ Hp).
  unfold box_volume, side in *. simpl in *. field. repeat split; lra.
Qed.
Lemma box_volume_pos b : box_ok b -> box_volume b > 0.
Proof.
  intros H. pose proof (side_pos _ AX H). pose proof (side_pos _ AY H). pose proof (side_pos _ AZ H).
  unfold box_volume, side in *. simpl in *. repeat apply Rmult_gt_0_compat; assumption.
Qed.
Lemma det_j_pos b : bounds_ok b -> det_j b > 0.
Proof. intros H. rewrite det_j_eq by assumption. destruct H. apply Rdiv_lt_0_compat; apply box_volume_pos; assumption. Qed.

Lemma round_trip_pg p b : bounds_ok b -> to_global (to_parametric p b) b = p.
Proof.
  intros H. apply pt_eq. intros a. rewrite to_global_at, to_parametric_at by assumption. destruct H as (Hg & Hp).
  pose proof (side_pos _ a Hg). pose proof (side_pos _ a Hp). field. split; lra.
Qed.
Lemma round_trip_gp p b : bounds_ok b -> to_parametric (to_global p b) b = p.
Proof.
  intros H. apply pt_eq. intros a. rewrite to_parametric_at, to_global_at by assumption. destruct H as (Hg & Hp).
  pose proof (side_pos _ a Hg). pose proof (side_pos _ a Hp). field. split; lra.
Qed.

Lemma affine_in l u l' u' x : l < u -> l' < u' ->
  (l <= x <= u <-> l' <= (x - l) * ((u' - l') / (u - l)) + l' <= u').
Proof.
  intros H H'. assert (K : (u' - l') / (u - l) > 0) by (apply Rdiv_lt_0_compat; lra).
  assert (E : (u - l) * ((u' - l') / (u - l)) = u' - l') by (field; lra). set (k := (u' - l') / (u - l)) in *. split.
  - intros (A & B). split; nra.
  - intros (A & B). split; apply Rnot_lt_le; intros C; nra.
Qed.
Lemma param_box p b : bounds_ok b -> (in_closed (eb_global b) p <-> in_closed (eb_param b) (to_parametric p b)).
Proof.
  intros H. pose proof H as (Hg & Hp). unfold in_closed. split; intros K a; specialize (K a).
  - rewrite to_parametric_at by assumption. unfold side. apply affine_in; auto.
  - rewrite to_parametric_at in K by assumption. unfold side in K. apply affine_in in K; auto.
Qed.
Lemma global_box p b : bounds_ok b -> (in_closed (eb_param b) p <-> in_closed (eb_global b) (to_global p b)).
Proof.
  intros H. rewrite (param_box (to_global p b) b H). rewrite round_trip_gp by assumption. tauto.
Qed.

Lemma points_round_trip p b : bounds_ok b -> to_global (to_parametric p b) b = p /\ to_parametric (to_global p b) b = p.
Proof. intros H. split; [apply round_trip_pg|apply round_trip_gp]; assumption. Qed.
Theorem C45_points_round_trip : forall p b, bounds_ok b ->
  to_global (to_parametric p b) b = p /\ to_parametric (to_global p b) b = p.
Proof. exact points_round_trip. Qed.
Print Assumptions C45_points_round_trip.

Lemma boxes_onto_boxes p b : bounds_ok b ->
  (in_closed (eb_global b) p <-> in_closed (eb_param b) (to_parametric p b)) /\
  (in_closed (eb_param b) p <-> in_closed (eb_global b) (to_global p b)).
Proof. intros H. split; [apply param_box|apply global_box]; assumption. Qed.
Theorem C45_boxes_onto_boxes : forall p b, bounds_ok b ->
  (in_closed (eb_global b) p <-> in_closed (eb_param b) (to_parametric p b)) /\
  (in_closed (eb_param b) p <-> in_closed (eb_global b) (to_global p b)).
Proof. exact boxes_onto_boxes. Qed.
Print Assumptions C45_boxes_onto_boxes.

(** the corners are exact *)
Lemma corners b : bounds_ok b ->
  to_parametric (lower (eb_global b)) b = lower (eb_param b) /\ to_parametric (upper (eb_global b)) b = upper (eb_param b) /\
  to_global (lower (eb_param b)) b = lower (eb_global b) /\ to_global (upper (eb_param b)) b = upper (eb_global b).
Proof.
  intros H. pose proof H as (Hg & Hp).
  split; [|split; [|split]]; apply pt_eq; intros a; pose proof (side_pos _ a Hg); pose proof (side_pos _ a Hp);
    rewrite ?to_parametric_at, ?to_global_at by assumption; unfold side in *; field; lra.
Qed.
Theorem C45_corners_onto_corners : forall b, bounds_ok b ->
  to_parametric (lower (eb_global b)) b = lower (eb_param b) /\ to_parametric (upper (eb_global b)) b = upper (eb_param b) /\
  to_global (lower (eb_param b)) b = lower (eb_global b) /\ to_global (upper (eb_param b)) b = upper (eb_global b).
Proof. exact corners. Qed.
Print Assumptions C45_corners_onto_corners.

Lemma volume_points q b : bounds_ok b ->
  ip_to_global (ip_to_parametric q b) b = q /\ ip_to_parametric (ip_to_global q b) b = q /\
  ip_weight (ip_to_global q b) = ip_weight q * (box_volume (eb_global b) / box_volume (eb_param b)).
Proof.
  intros H. pose proof (det_j_pos b H) as Hj. destruct q as (p, w). unfold ip_to_global, ip_to_parametric. simpl.
  rewrite round_trip_pg, round_trip_gp by assumption. split; [|split].
  - f_equal. field. lra.
  - f_equal. field. lra.
  - rewrite det_j_eq by assumption. reflexivity.
Qed.
Theorem C45_volume_points_round_trip : forall q b, bounds_ok b ->
  ip_to_global (ip_to_parametric q b) b = q /\ ip_to_parametric (ip_to_global q b) b = q /\
  ip_weight (ip_to_global q b) = ip_weight q * (box_volume (eb_global b) / box_volume (eb_param b)).
Proof. exact volume_points. Qed.
Print Assumptions C45_volume_points_round_trip.

(** ** boundary points *)
Lemma area_vector_at n s a : at_ a (area_vector n s) = match a with AX => px n * py s * pz s | AY => py n * px s * pz s | AZ => pz n * px s * py s end.
Proof. destruct a; reflexivity. Qed.
Lemma sq_nonneg v : 0 <= px v * px v + py v * py v + pz v * pz v.
Proof. nra. Qed.
Lemma norm_scaled c v : 0 <= c -> norm (scaled c v) = c * norm v.
Proof.
  intros Hc. unfold norm, scaled. simpl.
  replace (c * px v * (c * px v) + c * py v * (c * py v) + c * pz v * (c * pz v)) with (c * c * (px v * px v + py v * py v + pz v * pz v)) by ring.
  rewrite sqrt_mult; [|nra|apply sq_nonneg]. rewrite sqrt_square by assumption. reflexivity.
Qed.
Lemma area_data_back n w s s' : norm n = 1 ->
  (forall a, at_ a s * at_ a s' = 1) ->
  let m := norm (area_vector n s) in zerotol < m -> m < / zerotol ->
  let '(n1, a1) := area_data n s in let '(n2, a2) := area_data n1 s' in n2 = n /\ w * a1 * a2 = w.
Proof.
  intros Hn Hs m Hm1 Hm2. unfold area_data. fold m. assert (Z : 0 < zerotol) by (unfold zerotol; apply Rinv_0_lt_compat; apply pow_lt; lra).
  destruct (Rlt_dec zerotol m) as [_|]; [|lra].
  set (n1 := Pt _ _ _).
  assert (E : area_vector n1 s' = scaled (/ m) n).
  { pose proof (Hs AX) as H1. pose proof (Hs AY) as H2. pose proof (Hs AZ) as H3. simpl in H1, H2, H3.
    apply pt_eq. intros a. destruct a; unfold n1, area_vector, scaled; simpl.
    - transitivity (/ m * px n * (py s * py s') * (pz s * pz s')); [field; lra|rewrite H2, H3; ring].
    - transitivity (/ m * py n * (px s * px s') * (pz s * pz s')); [field; lra|rewrite H1, H3; ring].
    - transitivity (/ m * pz n * (px s * px s') * (py s * py s')); [field; lra|rewrite H1, H2; ring]. }
  assert (Im : 0 < / m) by (apply Rinv_0_lt_compat; lra).
  assert (EN : norm (area_vector n1 s') = / m) by (rewrite E, norm_scaled by lra; rewrite Hn; ring).
  rewrite EN. assert (zerotol < / m).
  { rewrite <- (Rinv_inv zerotol). apply Rinv_lt_contravar; [|assumption]. apply Rmult_lt_0_compat; [lra|]. apply Rinv_0_lt_compat; assumption. }
  destruct (Rlt_dec zerotol (/ m)) as [_|]; [|lra]. rewrite E. split.
  - destruct n as (nx, ny, nz). unfold scaled. simpl. f_equal; field; lra.
  - field. lra.
Qed.

Lemma scales_inverse b a : bounds_ok b ->
  at_ a (compute_scale (eb_global b) (eb_param b)) * at_ a (compute_scale (eb_param b) (eb_global b)) = 1.
Proof.
  intros (Hg & Hp). rewrite !scale_eq by assumption. pose proof (side_pos _ a Hg). pose proof (side_pos _ a Hp). field. split; lra.
Qed.

Lemma boundary_round_trip q b : bounds_ok b -> norm (bp_normal q) = 1 ->
  let a := norm (area_vector (bp_normal q) (compute_scale (eb_global b) (eb_param b))) in zerotol < a < / zerotol ->
  bp_to_global (bp_to_parametric q b) b = q.
Proof.
  intros H Hn a (Ha1 & Ha2). unfold bp_to_global, bp_to_parametric.
  pose proof (area_data_back (bp_normal q) (bp_weight q) _ _ Hn (fun x => scales_inverse b x H) Ha1 Ha2) as K.
  destruct (area_data (bp_normal q) (compute_scale (eb_global b) (eb_param b))) as (n1, a1). cbn [bp_pos bp_weight bp_normal].
  destruct (area_data n1 (compute_scale (eb_param b) (eb_global b))) as (n2, a2). destruct K as (-> & K2).
  rewrite round_trip_pg by assumption. rewrite K2. destruct q; reflexivity.
Qed.
Theorem C45_boundary_points_round_trip : forall q b, bounds_ok b -> norm (bp_normal q) = 1 ->
  let a := norm (area_vector (bp_normal q) (compute_scale (eb_global b) (eb_param b))) in zerotol < a < / zerotol ->
  bp_to_global (bp_to_parametric q b) b = q.
Proof. exact boundary_round_trip. Qed.
Print Assumptions C45_boundary_points_round_trip.

(** The transformed area data is that of the mapped surface: for a triangle (p, q, r) with unit normal n and
    (q-p) x (r-p) = area * n, the mapped triangle has normal n' and (twice the) area [area * factor]. *)
Lemma cross_mapped p q r b : bounds_ok b ->
  cross (sub (to_parametric q b) (to_parametric p b)) (sub (to_parametric r b) (to_parametric p b)) =
  area_vector (cross (sub q p) (sub r p)) (compute_scale (eb_global b) (eb_param b)).
Proof. intros H. unfold to_parametric, cross, sub, area_vector. simpl. f_equal; ring. Qed.

Lemma area_of_mapped p q r n area b : bounds_ok b -> 0 <= area -> cross (sub q p) (sub r p) = scaled area n ->
  let '(n', factor) := area_data n (compute_scale (eb_global b) (eb_param b)) in zerotol < factor ->
  cross (sub (to_parametric q b) (to_parametric p b)) (sub (to_parametric r b) (to_parametric p b)) = scaled (area * factor) n' /\ norm n' = 1.
Proof.
  intros H Ha E. unfold area_data. set (s := compute_scale _ _). set (m := norm (area_vector n s)). intros Hm.
  assert (Z : 0 < zerotol) by (unfold zerotol; apply Rinv_0_lt_compat; apply pow_lt; lra).
  destruct (Rlt_dec zerotol m) as [_|]; [|contradiction]. rewrite cross_mapped by assumption. fold s. rewrite E. clearbody s. assert (Hm0 : m <> 0) by lra. split.
  - unfold area_vector, scaled. cbn [px py pz]. clearbody m. f_equal; field; assumption.
  - transitivity (norm (scaled (/ m) (area_vector n s))).
    + f_equal. unfold scaled. f_equal; field; assumption.
    + rewrite norm_scaled by (left; apply Rinv_0_lt_compat; lra). fold m. field. lra.
Qed.
Theorem C45_boundary_area_and_normal_of_the_mapped_surface : forall p q r n area b,
  bounds_ok b -> 0 <= area -> cross (sub q p) (sub r p) = scaled area n ->
  let '(n', factor) := area_data n (compute_scale (eb_global b) (eb_param b)) in zerotol < factor ->
  cross (sub (to_parametric q b) (to_parametric p b)) (sub (to_parametric r b) (to_parametric p b)) = scaled (area * factor) n' /\ norm n' = 1.
Proof. exact area_of_mapped. Qed.
Print Assumptions C45_boundary_area_and_normal_of_the_mapped_surface.

(** instance: a box of side lengths 2, 4, 8 mapped to the unit cube, a point on a face *)
Example C45_example : exists q b, bounds_ok b /\ norm (bp_normal q) = 1 /\
  zerotol < norm (area_vector (bp_normal q) (compute_scale (eb_global b) (eb_param b))) < / zerotol /\
  bp_to_global (bp_to_parametric q b) b = q /\ bp_weight q = 3.
Proof.
  set (b := EB (Box (Pt 0 0 0) (Pt 2 4 8)) (Box (Pt 0 0 0) (Pt 1 1 1))). set (q := BP (Pt 1 2 8) 3 (Pt 0 0 1)).
  assert (Hb : bounds_ok b) by (split; intros []; simpl; lra).
  assert (Hn : norm (bp_normal q) = 1) by (unfold norm, q; simpl; replace (0 * 0 + 0 * 0 + 1 * 1) with (1 * 1) by ring; apply sqrt_square; lra).
  assert (Ha : norm (area_vector (bp_normal q) (compute_scale (eb_global b) (eb_param b))) = / 8).
  { transitivity (norm (scaled (/ 8) (Pt 0 0 1))).
    - f_equal. apply pt_eq. intros a. pose proof (scale_eq (eb_global b) (eb_param b) AX (proj1 Hb) (proj2 Hb)) as E1.
      pose proof (scale_eq (eb_global b) (eb_param b) AY (proj1 Hb) (proj2 Hb)) as E2. simpl in E1, E2. unfold side in E1, E2. simpl in E1, E2.
      destruct a; unfold scaled; simpl; [ring|ring|]. rewrite E1, E2. field.
    - rewrite norm_scaled by lra. unfold norm. simpl. replace (0 * 0 + 0 * 0 + 1 * 1) with (1 * 1) by ring. rewrite sqrt_square by lra. ring. }
  assert (Z : zerotol < / 8 < / zerotol).
  { unfold zerotol. rewrite Rinv_inv. assert (10 ^ 14 > 10) by (simpl; lra). split.
    - apply Rinv_lt_contravar; nra.
    - lra. }
  exists q, b. split; [exact Hb|]. split; [exact Hn|]. rewrite Ha. split; [exact Z|]. split; [|reflexivity].
  apply C45_boundary_points_round_trip; [exact Hb|exact Hn|]. rewrite Ha. exact Z.
Qed.
