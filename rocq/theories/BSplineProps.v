(** Property C71: the B-spline volume of a background grid. *)
From Coq Require Import Reals List Arith Bool ZArith Lia Lra Psatz.
From Verif Require Import Geo GridModel GridSpec GridProofs GridGeoModel MappingModel BSplineModel BSplineSpec BSplineProofs BSplineInsert BSplineVolume.
Import ListNotations.
Local Open Scope R_scope.

Definition spline_at (v : volume) (a : axis) : bspline := match a with AX => spline_u v | AY => spline_v v | AZ => spline_w v end.
(** The sizes for which a volume can be made. *)
Definition proper (gi : indexer) (orders : axis -> nat) : Prop :=
  forall a, (1 <= orders a)%nat /\ (1 <= n_at a (gi_grid gi))%nat /\ at_ a (lower (gi_xyz gi)) <> at_ a (upper (gi_xyz gi)) /\ at_ a (lower (gi_uvw gi)) < at_ a (upper (gi_uvw gi)).
Lemma volume_splines pad gi orders open v : make_volume pad gi orders open = Some v -> forall a, spline_of pad gi orders open a = Some (spline_at v a).
Proof.
  unfold make_volume. destruct (spline_of pad gi orders open AX) eqn:X; [|discriminate]. destruct (spline_of pad gi orders open AY) eqn:Y; [|discriminate]. destruct (spline_of pad gi orders open AZ) eqn:Z; [|discriminate].
  intros E. injection E as <-. intros []; assumption.
Qed.
Lemma volume_proper pad gi orders open v : make_volume pad gi orders open = Some v -> proper gi orders.
Proof. intros E a. assert (S := volume_splines pad gi orders open v E a). apply construct_good in S as ((A & B) & C & D & _). auto. Qed.
Lemma volume_good pad gi orders open v : make_volume pad gi orders open = Some v -> forall a,
  good (orders a) (n_at a (gi_grid gi)) (at_ a (lower (gi_xyz gi))) (at_ a (upper (gi_xyz gi))) (at_ a (lower (gi_uvw gi))) (at_ a (upper (gi_uvw gi))) open (spline_at v a).
Proof. intros E a. assert (S := volume_splines pad gi orders open v E a). apply construct_good in S as (_ & _ & _ & G). exact G. Qed.

(** A volume can be made exactly for proper sizes. *)
Theorem C71_defined : forall pad gi orders open, (exists v, make_volume pad gi orders open = Some v) <-> proper gi orders.
Proof.
  intros pad gi orders open. split; [intros (v & E); exact (volume_proper pad gi orders open v E)|]. intros P.
  assert (S : forall a, exists s, spline_of pad gi orders open a = Some s).
  { intros a. destruct (P a) as (A & B & C & D). destruct (construct_ok pad (orders a) (n_at a (gi_grid gi)) _ _ _ _ open A B D C) as (s & E & _). exists s. exact E. }
  unfold make_volume. destruct (S AX) as (x & ->). destruct (S AY) as (y & ->). destruct (S AZ) as (z & ->). eexists. reflexivity.
Qed.
Print Assumptions C71_defined.

(** The degrees, the knots and the number of control points. *)
Theorem C71_knots : forall pad gi orders open v, make_volume pad gi orders open = Some v -> forall a,
  let p := orders a in let n := n_at a (gi_grid gi) in let s := spline_at v a in
  bs_k s = p /\ length (bs_c s) = (n + p)%nat /\ bs_t s = map (spec_knot p n (at_ a (lower (gi_uvw gi))) (at_ a (upper (gi_uvw gi))) open) (seq 0 (n + 2 * p + 1)).
Proof.
  intros pad gi orders open v E a. cbv zeta. destruct (volume_good pad gi orders open v E a) as (K & L & C & T & _). split; [exact K|]. split; [exact C|].
  apply nth_ext with (d := 0) (d' := 0); [rewrite map_length, seq_length; exact L|]. intros i Hi. rewrite nth_map_seq by lia. apply T. lia.
Qed.
Print Assumptions C71_knots.

(** The control points: one for each triple of indices, in the documented order, at the images of the averages of the knots. *)
Theorem C71_control_points : forall pad gi orders open v, make_volume pad gi orders open = Some v ->
  let nu := length (bs_c (spline_u v)) in let nv := length (bs_c (spline_v v)) in let nw := length (bs_c (spline_w v)) in
  length (control_points v) = (nw * (nv * nu))%nat /\
  forall i j k, (i < nu)%nat -> (j < nv)%nat -> (k < nw)%nat -> exists c, nth_error (control_points v) ((k * nv + j) * nu + i) = Some c /\ control_matrix v i j k = Some c /\
    forall a, at_ a c = at_ a (lower (gi_xyz gi)) + (at_ a (upper (gi_xyz gi)) - at_ a (lower (gi_xyz gi))) / (at_ a (upper (gi_uvw gi)) - at_ a (lower (gi_uvw gi))) *
      (average (knot (spline_at v a)) (orders a) (match a with AX => i | AY => j | AZ => k end) - at_ a (lower (gi_uvw gi))).
Proof.
  intros pad gi orders open v E nu nv nw. split; [apply control_length|]. intros i j k Hi Hj Hk. assert (G := volume_good pad gi orders open v E).
  assert (N : forall (l : list R) m, (m < length l)%nat -> nth_error l m = Some (nth m l 0)) by (intros l m H; apply nth_error_nth'; exact H).
  exists (Pt (nth i (bs_c (spline_u v)) 0) (nth j (bs_c (spline_v v)) 0) (nth k (bs_c (spline_w v)) 0)). split; [apply control_nth; apply N; assumption|]. split; [unfold control_matrix; rewrite !N by assumption; reflexivity|].
  unfold nu, nv, nw in *. intros a. destruct (G a) as (_ & _ & C & _ & A). destruct a; cbn [at_ spline_at px py pz] in *; apply A; lia.
Qed.
Print Assumptions C71_control_points.

(** *** The map *)
Lemma triple_sum nu nv nw X Y Z (A B C : nat -> R) :
  upto nw (fun k => upto nv (fun j => upto nu (fun i => X i * Y j * Z k * (A i * B j * C k)))) = upto nu (fun i => X i * A i) * upto nv (fun j => Y j * B j) * upto nw (fun k => Z k * C k).
Proof.
  rewrite (upto_ext nw _ (fun k => upto nu (fun i => X i * A i) * upto nv (fun j => Y j * B j) * (Z k * C k))).
  - rewrite upto_scal. reflexivity.
  - intros k _. rewrite (upto_ext nv _ (fun j => (upto nu (fun i => X i * A i) * (Z k * C k)) * (Y j * B j))).
    + rewrite upto_scal. ring.
    + intros j _. rewrite (upto_ext nu _ (fun i => (Y j * B j * (Z k * C k)) * (X i * A i))) by (intros; ring). rewrite upto_scal. ring.
Qed.
Section Map.
Variables (pad : list R -> list R) (gi : indexer) (orders : axis -> nat) (open : bool) (v : volume).
Hypothesis E : make_volume pad gi orders open = Some v.
Definition spanned (ju jv jw : nat) (u : pt) : Prop := in_span (spline_u v) ju (px u) /\ in_span (spline_v v) jv (py u) /\ in_span (spline_w v) jw (pz u).
Lemma volume_affine ju jv jw u : spanned ju jv jw u -> forall a,
  at_ a (volume_at v ju jv jw u) = at_ a (lower (gi_xyz gi)) + (at_ a (upper (gi_xyz gi)) - at_ a (lower (gi_xyz gi))) / (at_ a (upper (gi_uvw gi)) - at_ a (lower (gi_uvw gi))) * (at_ a u - at_ a (lower (gi_uvw gi))).
Proof.
  intros (Su & Sv & Sw). assert (P := volume_proper pad gi orders open v E). assert (G := volume_good pad gi orders open v E).
  assert (K : forall a j t, in_span (spline_at v a) j t -> value_at (spline_at v a) j t = at_ a (lower (gi_xyz gi)) + (at_ a (upper (gi_xyz gi)) - at_ a (lower (gi_xyz gi))) / (at_ a (upper (gi_uvw gi)) - at_ a (lower (gi_uvw gi))) * (t - at_ a (lower (gi_uvw gi))) /\
    upto (length (bs_c (spline_at v a))) (fun i => basis (knot (spline_at v a)) j (bs_k (spline_at v a)) i t) = 1 /\ bs_n (bs_t (spline_at v a)) (bs_k (spline_at v a)) = length (bs_c (spline_at v a))).
  { intros a j t I. destruct (P a) as (A & B & _ & D). destruct (spline_affine _ _ _ _ _ _ open _ A B D (G a) j t I) as [V U]. split; [exact V|]. assert (N := good_n _ _ _ _ _ _ open _ A B (G a)). destruct (G a) as (Ek & _ & Ec & _). rewrite Ec, Ek. split; [exact U|]. rewrite Ek in N. exact N. }
  destruct (K AX ju (px u) Su) as (Vu & Uu & Nu). destruct (K AY jv (py u) Sv) as (Vv & Uv & Nv). destruct (K AZ jw (pz u) Sw) as (Vw & Uw & Nw). cbn [spline_at] in *. unfold value_at in *. rewrite Nu in Vu. rewrite Nv in Vv. rewrite Nw in Vw.
  unfold volume_at. cbv zeta. rewrite Nu, Nv, Nw.
  set (nu := length (bs_c (spline_u v))) in *. set (nv := length (bs_c (spline_v v))) in *. set (nw := length (bs_c (spline_w v))) in *.
  set (A := fun i => basis (knot (spline_u v)) ju (bs_k (spline_u v)) i (px u)) in *. set (B := fun j => basis (knot (spline_v v)) jv (bs_k (spline_v v)) j (py u)) in *. set (C := fun k => basis (knot (spline_w v)) jw (bs_k (spline_w v)) k (pz u)) in *.
  assert (F : forall a, upto nw (fun k => upto nv (fun j => upto nu (fun i => match nth_error (control_points v) ((k * nv + j) * nu + i) with Some c => at_ a c | None => 0 end * (A i * B j * C k)))) =
    match a with AX => upto nu (fun i => nth i (bs_c (spline_u v)) 0 * A i) | AY => upto nv (fun j => nth j (bs_c (spline_v v)) 0 * B j) | AZ => upto nw (fun k => nth k (bs_c (spline_w v)) 0 * C k) end).
  { intros a. assert (N : forall (l : list R) m, (m < length l)%nat -> nth_error l m = Some (nth m l 0)) by (intros l m H; apply nth_error_nth'; exact H).
    transitivity (upto nw (fun k => upto nv (fun j => upto nu (fun i => (match a with AX => nth i (bs_c (spline_u v)) 0 | _ => 1 end) * (match a with AY => nth j (bs_c (spline_v v)) 0 | _ => 1 end) * (match a with AZ => nth k (bs_c (spline_w v)) 0 | _ => 1 end) * (A i * B j * C k))))).
    - apply upto_ext. intros k Hk. apply upto_ext. intros j Hj. apply upto_ext. intros i Hi. unfold nu, nv, nw in *. rewrite (control_nth v i j k _ _ _ (N _ i Hi) (N _ j Hj) (N _ k Hk)). destruct a; cbn [at_ px py pz]; ring.
    - rewrite (triple_sum nu nv nw (fun i => match a with AX => nth i (bs_c (spline_u v)) 0 | _ => 1 end) (fun j => match a with AY => nth j (bs_c (spline_v v)) 0 | _ => 1 end) (fun k => match a with AZ => nth k (bs_c (spline_w v)) 0 | _ => 1 end) A B C).
      assert (One : forall m f, upto m (fun i => 1 * f i) = upto m f) by (intros; apply upto_ext; intros; ring).
      destruct a; rewrite ?One; change (upto nu A = 1) in Uu; change (upto nv B = 1) in Uv; change (upto nw C = 1) in Uw; rewrite ?Uu, ?Uv, ?Uw; ring. }
  intros a. destruct a; cbn [at_ px py pz].
  - etransitivity; [exact (F AX)|]. exact Vu.
  - etransitivity; [exact (F AY)|]. exact Vv.
  - etransitivity; [exact (F AZ)|]. exact Vw.
Qed.
(** The cell with index i is the product of three knot spans. *)
Lemma cell_spanned i u : grid_ok (gi_grid gi) -> (i < num_elements (gi_grid gi))%nat -> gi_bspline gi = true -> (forall a, at_ a (lower (box_uvw gi i)) <= at_ a u <= at_ a (upper (box_uvw gi i))) ->
  let c := mat_of (gi_grid gi) i in spanned (orders AX + cx c) (orders AY + cy c) (orders AZ + cz c) u.
Proof.
  intros Hg Hi Hb U c. assert (P := volume_proper pad gi orders open v E). assert (G := volume_good pad gi orders open v E). destruct (mat_of_in_grid (gi_grid gi) i Hg Hi) as (Cx & Cy & Cz).
  unfold box_uvw in U. rewrite Hb in U. fold c in U, Cx, Cy, Cz.
  assert (K : forall a m, (m < n_at a (gi_grid gi))%nat -> at_ a (lower (gi_uvw gi)) + delta (gi_grid gi) (gi_uvw gi) a * INR m <= at_ a u <= at_ a (lower (gi_uvw gi)) + delta (gi_grid gi) (gi_uvw gi) a * (1 + INR m) -> in_span (spline_at v a) (orders a + m) (at_ a u)).
  { intros a m Hm B. destruct (P a) as (A1 & A2 & _ & A4). apply (cell_span _ _ _ _ _ _ open _ A1 A2 A4 (G a) m (at_ a u) Hm). unfold delta in B. rewrite Rabs_pos_eq in B by lra. lra. }
  split; [|split]; [apply (K AX)|apply (K AY)|apply (K AZ)]; try assumption; [specialize (U AX)|specialize (U AY)|specialize (U AZ)]; cbn [at_ cell_box lower upper px py pz] in *; lra.
Qed.
Lemma volume_maps i u : grid_ok (gi_grid gi) -> (i < num_elements (gi_grid gi))%nat -> gi_bspline gi = true -> (forall a, at_ a (lower (gi_xyz gi)) < at_ a (upper (gi_xyz gi))) ->
  (forall a, at_ a (lower (box_uvw gi i)) <= at_ a u <= at_ a (upper (box_uvw gi i))) ->
  let c := mat_of (gi_grid gi) i in volume_at v (orders AX + cx c) (orders AY + cy c) (orders AZ + cz c) u = to_global u (EB (box_xyz gi i) (box_uvw gi i)).
Proof.
  intros Hg Hi Hb Hx U c. assert (A := volume_affine _ _ _ u (cell_spanned i u Hg Hi Hb U)). fold c in A. assert (P := volume_proper pad gi orders open v E).
  assert (K : forall l1 u1 l2 u2 (n m : nat) t, (1 <= n)%nat -> l1 < u1 -> l2 < u2 ->
    l1 + (u1 - l1) / (u2 - l2) * (t - l2) = (t - (l2 + Rabs (u2 - l2) / INR n * INR m)) * (Rabs ((l1 + Rabs (u1 - l1) / INR n * (1 + INR m)) - (l1 + Rabs (u1 - l1) / INR n * INR m)) / Rabs ((l2 + Rabs (u2 - l2) / INR n * (1 + INR m)) - (l2 + Rabs (u2 - l2) / INR n * INR m))) + (l1 + Rabs (u1 - l1) / INR n * INR m)).
  { intros l1 u1 l2 u2 n m t Hn H1 H2. assert (N : 0 < INR n) by (apply lt_0_INR; lia). rewrite (Rabs_pos_eq (u1 - l1)), (Rabs_pos_eq (u2 - l2)) by lra.
    replace (l1 + (u1 - l1) / INR n * (1 + INR m) - (l1 + (u1 - l1) / INR n * INR m)) with ((u1 - l1) / INR n) by ring. replace (l2 + (u2 - l2) / INR n * (1 + INR m) - (l2 + (u2 - l2) / INR n * INR m)) with ((u2 - l2) / INR n) by ring.
    rewrite !Rabs_pos_eq by (apply Rmult_le_pos; [lra|left; apply Rinv_0_lt_compat; exact N]). field. lra. }
  assert (Ex := A AX). assert (Ey := A AY). assert (Ez := A AZ). cbn [at_] in Ex, Ey, Ez. destruct (volume_at v _ _ _ u) as [x y z]. cbn [px py pz] in *. subst x y z.
  destruct (P AX) as (_ & Nx & _ & Ux). destruct (P AY) as (_ & Ny & _ & Uy). destruct (P AZ) as (_ & Nz & _ & Uz).
  unfold to_global, box_uvw, box_xyz. rewrite Hb. fold c. unfold compute_scale. cbn [eb_param eb_global cell_box lower upper px py pz]. unfold delta. f_equal; [apply (K _ _ _ _ (nx (gi_grid gi)))|apply (K _ _ _ _ (ny (gi_grid gi)))|apply (K _ _ _ _ (nz (gi_grid gi)))]; first [exact Nx|exact Ny|exact Nz|apply (Hx AX)|apply (Hx AY)|apply (Hx AZ)|exact Ux|exact Uy|exact Uz].
Qed.
End Map.

(** The volume maps the parametric box of the grid linearly to its box. *)
Theorem C71_linear : forall pad gi orders open v, make_volume pad gi orders open = Some v -> forall ju jv jw u, spanned v ju jv jw u -> forall a,
  at_ a (volume_at v ju jv jw u) = at_ a (lower (gi_xyz gi)) + (at_ a (upper (gi_xyz gi)) - at_ a (lower (gi_xyz gi))) / (at_ a (upper (gi_uvw gi)) - at_ a (lower (gi_uvw gi))) * (at_ a u - at_ a (lower (gi_uvw gi))).
Proof. exact volume_affine. Qed.
Print Assumptions C71_linear.
(** In each cell, which is a product of knot spans, this is the map of the element from its parametric to its global box. *)
Theorem C71_element_map : forall pad gi orders open v, make_volume pad gi orders open = Some v -> grid_ok (gi_grid gi) -> gi_bspline gi = true -> (forall a, at_ a (lower (gi_xyz gi)) < at_ a (upper (gi_xyz gi))) ->
  forall i u, (i < num_elements (gi_grid gi))%nat -> (forall a, at_ a (lower (box_uvw gi i)) <= at_ a u <= at_ a (upper (box_uvw gi i))) ->
  let c := mat_of (gi_grid gi) i in spanned v (orders AX + cx c) (orders AY + cy c) (orders AZ + cz c) u /\
  volume_at v (orders AX + cx c) (orders AY + cy c) (orders AZ + cz c) u = to_global u (EB (box_xyz gi i) (box_uvw gi i)).
Proof.
  intros pad gi orders open v E Hg Hb Hx i u Hi U c. split; [apply (cell_spanned pad gi orders open v E i u Hg Hi Hb U)|]. apply (volume_maps pad gi orders open v E i u Hg Hi Hb Hx U).
Qed.
Print Assumptions C71_element_map.

(** Example: 2 x 1 x 3 cells of orders 2, 1, 3. *)
Definition small_grid : indexer := Indexer (Grid 2 1 3) (Box (Pt 0 0 (-1)) (Pt 4 1 2)) (Box (Pt 0 0 0) (Pt 1 1 1)) true.
Definition small_orders (a : axis) : nat := match a with AX => 2 | AY => 1 | AZ => 3 end.
Example C71_example : forall open, exists v, make_volume (fun _ => [0]) small_grid small_orders open = Some v /\ grid_ok (gi_grid small_grid) /\ (forall a, at_ a (lower (gi_xyz small_grid)) < at_ a (upper (gi_xyz small_grid))) /\
  spanned v 3 1 4 (Pt (3/4) (1/2) (1/2)) /\ volume_at v 3 1 4 (Pt (3/4) (1/2) (1/2)) = Pt 3 (1/2) (1/2) /\ length (control_points v) = 48%nat.
Proof.
  intros open. assert (P : proper small_grid small_orders) by (intros []; cbn; repeat split; try lia; lra).
  apply (C71_defined (fun _ => [0]) small_grid small_orders open) in P as (v & E). exists v. split; [exact E|]. assert (Hg : grid_ok (gi_grid small_grid)) by (repeat split; cbn; lia). split; [exact Hg|]. split; [intros []; cbn; lra|].
  assert (M : mat_of (gi_grid small_grid) 3 = C3 1 0 1) by reflexivity.
  assert (Hx : forall a, at_ a (lower (gi_xyz small_grid)) < at_ a (upper (gi_xyz small_grid))) by (intros []; cbn; lra).
  destruct (C71_element_map _ _ _ _ _ E Hg eq_refl Hx 3%nat (Pt (3/4) (1/2) (1/2))) as [S V].
  - cbn; lia.
  - unfold box_uvw. cbn [gi_bspline small_grid]. fold small_grid. rewrite M. intros []; cbn [cell_box at_ lower upper px py pz cx cy cz gi_uvw small_grid]; unfold delta; cbn [at_ lower upper px py pz gi_grid gi_uvw small_grid n_at nx ny nz INR]; rewrite Rabs_pos_eq by lra; lra.
  - rewrite M in S, V. cbn [cx cy cz small_orders Nat.add] in S, V. split; [exact S|]. split.
    + assert (A := C71_linear _ _ _ _ _ E 3%nat 1%nat 4%nat _ S). assert (Ax := A AX). assert (Ay := A AY). assert (Az := A AZ). cbn [at_ small_grid gi_xyz gi_uvw lower upper px py pz] in *. destruct (volume_at v 3 1 4 _) as [x y z]. cbn [px py pz] in *. f_equal; lra.
    + destruct (C71_control_points _ _ _ _ _ E) as [L _]. rewrite L. assert (N := C71_knots _ _ _ _ _ E). destruct (N AX) as (_ & Nx & _). destruct (N AY) as (_ & Ny & _). destruct (N AZ) as (_ & Nz & _). cbn [spline_at] in *. rewrite Nx, Ny, Nz. reflexivity.
Qed.
