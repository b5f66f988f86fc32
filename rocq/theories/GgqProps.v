(** Property C17: distribution of the GGQ points of a box. *)
From Coq Require Import Arith Reals List Lra Lia Permutation.
From Verif Require Import Geo GridModel GridSpec GridProofs GridGeoModel BoxModel BoxSpec BoxProofs BoxProps GgqModel GgqProofs.
Import ListNotations.
Local Open Scope R_scope.

(** the 1D points lie in [0,1) and not closer than the tolerance to the upper end of the box *)
Definition rule_fits (bb : box) (r : axis -> rule) : Prop := forall a q, In q (r a) ->
  0 <= fst q /\ at_ a (lower bb) + (at_ a (upper bb) - at_ a (lower bb)) * fst q < at_ a (upper bb) - eps3.
Definition axis_volume (bb : box) : R :=
  (px (upper bb) - px (lower bb)) * (py (upper bb) - py (lower bb)) * (pz (upper bb) - pz (lower bb)).

Lemma concat_box_points bx l r : concat (map snd (box_points bx l r)) = flat_map (fun i => element_points (bx i) (bounds_of bx l) r) l.
Proof. unfold box_points. rewrite map_map. simpl. rewrite flat_map_concat_map. reflexivity. Qed.

Lemma distribution gi l s r : grid_ok (gi_grid gi) -> box_ok (gi_uvw gi) -> gi_bspline gi = true -> is_cuboid (gi_grid gi) l s ->
  let bb := bounds_of (box_uvw gi) l in rule_fits bb r ->
  exists f : axis -> R * R -> R * R,
    Permutation (concat (map snd (box_points (box_uvw gi) l r))) (tensor (map (f AX) (r AX)) (map (f AY) (r AY)) (map (f AZ) (r AZ))) /\
    forall a q, In q (r a) -> snd (f a q) = (at_ a (upper bb) - at_ a (lower bb)) * snd q /\
      Rabs (fst (f a q) - (at_ a (lower bb) + (at_ a (upper bb) - at_ a (lower bb)) * fst q)) <= eps2 /\
      (delta (gi_grid gi) (gi_uvw gi) a > 3 * eps3 -> at_ a (lower bb) < fst (f a q) < at_ a (upper bb)).
Proof.
  intros Hg Hb Hs (Hn & HN & S1 & S2 & S3 & lo & L1 & L2 & L3 & Hl) bb Hr. rewrite concat_box_points.
  apply (all_points gi Hg Hb Hs l s lo); auto.
Qed.
Theorem C17_every_point_given_to_one_element : forall gi l s r,
  grid_ok (gi_grid gi) -> box_ok (gi_uvw gi) -> gi_bspline gi = true -> is_cuboid (gi_grid gi) l s ->
  let bb := bounds_of (box_uvw gi) l in rule_fits bb r ->
  exists f : axis -> R * R -> R * R,
    Permutation (concat (map snd (box_points (box_uvw gi) l r))) (tensor (map (f AX) (r AX)) (map (f AY) (r AY)) (map (f AZ) (r AZ))) /\
    forall a q, In q (r a) -> snd (f a q) = (at_ a (upper bb) - at_ a (lower bb)) * snd q /\
      Rabs (fst (f a q) - (at_ a (lower bb) + (at_ a (upper bb) - at_ a (lower bb)) * fst q)) <= eps2 /\
      (delta (gi_grid gi) (gi_uvw gi) a > 3 * eps3 -> at_ a (lower bb) < fst (f a q) < at_ a (upper bb)).
Proof. exact distribution. Qed.
Print Assumptions C17_every_point_given_to_one_element.

Lemma total_weight gi l s r : grid_ok (gi_grid gi) -> box_ok (gi_uvw gi) -> gi_bspline gi = true -> is_cuboid (gi_grid gi) l s ->
  let bb := bounds_of (box_uvw gi) l in rule_fits bb r ->
  rsum (map ip_weight (concat (map snd (box_points (box_uvw gi) l r)))) =
    axis_volume bb * (rsum (map snd (r AX)) * rsum (map snd (r AY)) * rsum (map snd (r AZ))).
Proof.
  intros Hg Hb Hs Hc bb Hr. destruct (distribution gi l s r Hg Hb Hs Hc Hr) as (f & P & F).
  rewrite (rsum_perm _ _ (Permutation_map ip_weight P)), tensor_weights.
  assert (X : forall a, rsum (map snd (map (f a) (r a))) = (at_ a (upper bb) - at_ a (lower bb)) * rsum (map snd (r a))).
  { intros a. rewrite <- rsum_scale. rewrite !map_map. f_equal. apply map_ext_in. intros q Hq. apply F. assumption. }
  rewrite !X. unfold axis_volume. simpl. ring.
Qed.
Theorem C17_total_weight_is_box_volume_times_rule : forall gi l s r,
  grid_ok (gi_grid gi) -> box_ok (gi_uvw gi) -> gi_bspline gi = true -> is_cuboid (gi_grid gi) l s ->
  let bb := bounds_of (box_uvw gi) l in rule_fits bb r ->
  rsum (map ip_weight (concat (map snd (box_points (box_uvw gi) l r)))) =
    axis_volume bb * (rsum (map snd (r AX)) * rsum (map snd (r AY)) * rsum (map snd (r AZ))).
Proof. exact total_weight. Qed.
Print Assumptions C17_total_weight_is_box_volume_times_rule.

Lemma inside_own gi l s r i pts q : grid_ok (gi_grid gi) -> box_ok (gi_uvw gi) -> gi_bspline gi = true -> is_cuboid (gi_grid gi) l s ->
  rule_fits (bounds_of (box_uvw gi) l) r -> (forall a, delta (gi_grid gi) (gi_uvw gi) a > 3 * eps3) ->
  In (i, pts) (box_points (box_uvw gi) l r) -> In q pts -> in_open (box_uvw gi i) (ip_pos q).
Proof.
  intros Hg Hb Hs (Hn & HN & S1 & S2 & S3 & lo & L1 & L2 & L3 & Hl) Hr Hd Hi Hq.
  unfold box_points in Hi. apply in_map_iff in Hi. destruct Hi as (j & E & Hj). injection E as -> <-.
  eapply (points_inside gi Hg Hb Hs l s lo); eauto.
Qed.
Theorem C17_points_inside_own_element : forall gi l s r i pts q,
  grid_ok (gi_grid gi) -> box_ok (gi_uvw gi) -> gi_bspline gi = true -> is_cuboid (gi_grid gi) l s ->
  rule_fits (bounds_of (box_uvw gi) l) r -> (forall a, delta (gi_grid gi) (gi_uvw gi) a > 3 * eps3) ->
  In (i, pts) (box_points (box_uvw gi) l r) -> In q pts -> in_open (box_uvw gi i) (ip_pos q).
Proof. exact inside_own. Qed.
Print Assumptions C17_points_inside_own_element.

Lemma assembled_total gi U boxes l s r : grid_ok (gi_grid gi) -> box_ok (gi_uvw gi) -> gi_bspline gi = true ->
  interior (gi_grid gi) U -> assemble_boxes (gi_grid gi) U = Some boxes -> In (l, s) boxes ->
  rule_fits (bounds_of (box_uvw gi) l) r ->
  rsum (map ip_weight (concat (map snd (box_points (box_uvw gi) l r)))) =
    axis_volume (bounds_of (box_uvw gi) l) * (rsum (map snd (r AX)) * rsum (map snd (r AY)) * rsum (map snd (r AZ))).
Proof.
  intros Hg Hb Hs Hi E Hin Hr. destruct (boxes_cuboids_interior _ _ Hg Hi) as (bs & E' & H). rewrite E in E'. injection E' as <-.
  apply (total_weight gi l s r); auto.
Qed.
(** for the boxes the assembly actually builds *)
Theorem C17_assembled_boxes_keep_their_volume : forall gi U boxes l s r,
  grid_ok (gi_grid gi) -> box_ok (gi_uvw gi) -> gi_bspline gi = true ->
  interior (gi_grid gi) U -> assemble_boxes (gi_grid gi) U = Some boxes -> In (l, s) boxes ->
  rule_fits (bounds_of (box_uvw gi) l) r ->
  rsum (map ip_weight (concat (map snd (box_points (box_uvw gi) l r)))) =
    axis_volume (bounds_of (box_uvw gi) l) * (rsum (map snd (r AX)) * rsum (map snd (r AY)) * rsum (map snd (r AZ))).
Proof. exact assembled_total. Qed.
Print Assumptions C17_assembled_boxes_keep_their_volume.

(** a 4x4x4 grid on [0,4]^3, the box of the cells (1,1,1) and (2,1,1), the two-point midpoint rule *)
Definition ex_gi : indexer := Indexer (Grid 4 4 4) (Box (Pt 0 0 0) (Pt 4 4 4)) (Box (Pt 0 0 0) (Pt 4 4 4)) true.
Definition ex_rule (a : axis) : rule := [(1/4, 1/2); (3/4, 1/2)].
Lemma ex_delta a : delta (gi_grid ex_gi) (gi_uvw ex_gi) a = 1.
Proof. unfold delta. destruct a; simpl; (rewrite Rabs_right by lra); field. Qed.
Lemma eps3_small : 0 < eps3 < 1/100.
Proof.
  unfold eps3. split; [apply Rinv_0_lt_compat, pow_lt; lra|].
  assert (/ 10 ^ 12 < / 100); [|lra]. apply Rinv_lt_contravar; [apply Rmult_lt_0_compat; [lra|apply pow_lt; lra]|]. simpl. lra.
Qed.
Lemma ex_cuboid : is_cuboid (gi_grid ex_gi) [21; 22]%nat (C3 2 1 1).
Proof.
  split; [repeat constructor; simpl; lia|]. split; [intros i [<-|[<-|[]]]; vm_compute; lia|]. simpl.
  split; [lia|]. split; [lia|]. split; [lia|]. exists (C3 1 1 1). simpl. split; [lia|]. split; [lia|]. split; [lia|].
  intros c Hc. unfold in_grid in Hc. simpl in Hc. unfold within, vec_of. simpl. lia.
Qed.
Example C17_example : grid_ok (gi_grid ex_gi) /\ box_ok (gi_uvw ex_gi) /\ gi_bspline ex_gi = true /\
  is_cuboid (gi_grid ex_gi) [21; 22]%nat (C3 2 1 1) /\ rule_fits (bounds_of (box_uvw ex_gi) [21; 22]%nat) ex_rule /\
  (forall a, delta (gi_grid ex_gi) (gi_uvw ex_gi) a > 3 * eps3) /\
  rsum (map ip_weight (concat (map snd (box_points (box_uvw ex_gi) [21; 22]%nat ex_rule)))) = 2.
Proof.
  pose proof eps3_small as He.
  assert (Hg : grid_ok (gi_grid ex_gi)) by (repeat constructor).
  assert (Hb : box_ok (gi_uvw ex_gi)) by (intros []; simpl; lra).
  assert (Hc := ex_cuboid). pose proof Hc as Hc'.
  destruct Hc' as (Hn & HN & S1 & S2 & S3 & lo & L1 & L2 & L3 & Hl).
  assert (lo = C3 1 1 1) as ->.
  { assert (within lo (C3 2 1 1) (C3 1 1 1)) as A by (apply Hl; [unfold in_grid; simpl; lia|vm_compute; tauto]).
    assert (within lo (C3 2 1 1) (C3 2 1 1)) as B by (apply Hl; [unfold in_grid; simpl; lia|vm_compute; tauto]).
    unfold within in A, B. simpl in A, B. destruct lo as [x y z]; simpl in *. f_equal; lia. }
  assert (Bd : forall a, at_ a (lower (bounds_of (box_uvw ex_gi) [21; 22]%nat)) = 1 /\
                 at_ a (upper (bounds_of (box_uvw ex_gi) [21; 22]%nat)) = match a with AX => 3 | _ => 2 end).
  { intros a. destruct (bb_bounds ex_gi Hg Hb eq_refl [21; 22]%nat (C3 2 1 1) (C3 1 1 1) Hn HN ltac:(simpl; lia) ltac:(simpl; lia) Hl a) as (E1 & E2).
    rewrite E1, E2, ex_delta. destruct a; simpl; lra. }
  assert (Hr : rule_fits (bounds_of (box_uvw ex_gi) [21; 22]%nat) ex_rule).
  { intros a q Hq. destruct (Bd a) as (E1 & E2). rewrite E1, E2.
    destruct Hq as [<-|[<-|[]]]; simpl; destruct a; lra. }
  split; [assumption|]. split; [assumption|]. split; [reflexivity|]. split; [assumption|]. split; [assumption|]. split.
  - intros a. rewrite ex_delta. lra.
  - rewrite (total_weight ex_gi [21; 22]%nat (C3 2 1 1) ex_rule Hg Hb eq_refl Hc Hr). unfold axis_volume.
    destruct (Bd AX) as (A1 & A2), (Bd AY) as (B1 & B2), (Bd AZ) as (C1 & C2). cbn [at_] in *.
    rewrite A1, A2, B1, B2, C1, C2. unfold ex_rule; simpl. lra.
Qed.
