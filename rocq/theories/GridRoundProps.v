(** Property C76: the cell boxes computed in double precision. *)
From Coq Require Import Reals ZArith Lra Lia Arith.
From Flocq Require Import Core Relative.
From Verif Require Import Geo GridModel GridSpec GridProofs GridGeoModel GridGeoSpec GridGeoProofs GridRoundModel GridRoundProofs.
Local Open Scope R_scope.

(** ** Specification. *)
(** The numbers of cells are exact doubles. *)
Definition countable (g : grid) : Prop := forall a, (Z.of_nat (n_at a g) <= 2 ^ 53)%Z.
(** The exact width of a cell. *)
Definition width (g : grid) (b : box) (a : axis) : R := (at_ a (upper b) - at_ a (lower b)) / INR (n_at a g).
(** Size of the coordinates, and one unit of error: 2^-50 of it. *)
Definition unit_error (b : box) (a : axis) : R := (Rabs (at_ a (lower b)) + Rabs (at_ a (upper b))) / 1125899906842624.
(** The boxes do not overlap and leave no gap between the corner of the grid and the point e. *)
Definition ordered (g : grid) (cellb : c3 -> box) : Prop := forall c, in_grid g c -> forall a, at_ a (lower (cellb c)) <= at_ a (upper (cellb c)).
Definition no_gap (g : grid) (b : box) (cellb : c3 -> box) : Prop := forall p, in_closed b p -> exists c, in_grid g c /\ in_closed (cellb c) p.
Definition no_overlap (g : grid) (cellb : c3 -> box) : Prop := forall c c' p, in_grid g c -> in_grid g c' -> in_open (cellb c) p -> in_closed (cellb c') p -> c = c'.
Definition within (g : grid) (b : box) (cellb : c3 -> box) : Prop := forall c p, in_grid g c -> in_closed (cellb c) p -> in_closed b p.

Section Family.
Variable contract : bool.
Notation cell_box_d := (cell_box_d contract). Notation low := (low contract). Notation high := (high contract).
Lemma cell_low g b c a : at_ a (lower (cell_box_d g b c)) = low (at_ a (lower b)) (at_ a (upper b)) (n_at a g) (c_at a c). Proof. destruct a; reflexivity. Qed.
Lemma cell_high g b c a : countable g -> in_grid g c -> at_ a (upper (cell_box_d g b c)) = low (at_ a (lower b)) (at_ a (upper b)) (n_at a g) (S (c_at a c)).
Proof. intros N I. pose proof (proj1 (in_grid_at g c) I a) as H. specialize (N a). rewrite <- high_low by lia. destruct a; reflexivity. Qed.
(** The end of the last cells. *)
Definition last_corner (g : grid) (b : box) : pt := let e a := low (at_ a (lower b)) (at_ a (upper b)) (n_at a g) (n_at a g) in Pt (e AX) (e AY) (e AZ).
Definition covered (g : grid) (b : box) : box := Box (lower b) (last_corner g b).
Lemma at_last g b a : at_ a (last_corner g b) = low (at_ a (lower b)) (at_ a (upper b)) (n_at a g) (n_at a g). Proof. destruct a; reflexivity. Qed.
Lemma locate (f : nat -> R) n x : (0 < n)%nat -> f 0%nat <= x <= f n -> exists i, (i < n)%nat /\ f i <= x <= f (S i).
Proof.
  induction n as [|n IH]; intros H L; [lia|]. destruct (Rle_lt_dec (f n) x) as [G|G]; [exists n; split; [lia|split; [exact G|apply L]]|]. destruct n as [|n]; [lra|]. destruct IH as (i & Hi & B); [lia|lra|]. exists i. split; [lia|exact B].
Qed.
Definition doubles (p : pt) : Prop := forall a, is_double (at_ a p).
Lemma weak_tiles g b : grid_ok g -> countable g -> doubles (lower b) ->
  ordered g (cell_box_d g b) /\ no_gap g (covered g b) (cell_box_d g b) /\ no_overlap g (cell_box_d g b) /\ within g (covered g b) (cell_box_d g b).
Proof.
  intros Hg N D. split; [|split; [|split]].
  - intros c I a. rewrite cell_low, cell_high by assumption. apply low_le. lia.
  - intros p Hp. assert (L : forall a, exists i, (i < n_at a g)%nat /\ low (at_ a (lower b)) (at_ a (upper b)) (n_at a g) i <= at_ a p <= low (at_ a (lower b)) (at_ a (upper b)) (n_at a g) (S i)).
    { intros a. apply locate; [apply (proj1 (grid_ok_at g) Hg)|]. rewrite low_first by apply D. specialize (Hp a). cbn [covered lower upper] in Hp. rewrite at_last in Hp. exact Hp. }
    destruct (L AX) as (i & Hi & Bi), (L AY) as (j & Hj & Bj), (L AZ) as (k & Hk & Bk). exists (C3 i j k). assert (I : in_grid g (C3 i j k)) by (split; [exact Hi|split; [exact Hj|exact Hk]]). split; [exact I|]. intros a. rewrite cell_low, cell_high by assumption. destruct a; assumption.
  - intros c c' p I I' O C. apply c3_eq_at. intros a. specialize (O a). specialize (C a). rewrite cell_low, cell_high in O, C by assumption. destruct (Nat.lt_trichotomy (c_at a c) (c_at a c')) as [L|[E|L]]; [|exact E|]; exfalso.
    + pose proof (low_le contract (at_ a (lower b)) (at_ a (upper b)) (n_at a g) (S (c_at a c)) (c_at a c') L). lra.
    + pose proof (low_le contract (at_ a (lower b)) (at_ a (upper b)) (n_at a g) (S (c_at a c')) (c_at a c) L). lra.
  - intros c p I H a. specialize (H a). rewrite cell_low, cell_high in H by assumption. cbn [covered lower upper]. rewrite at_last. pose proof (proj1 (in_grid_at g c) I a) as L. pose proof (low_le contract (at_ a (lower b)) (at_ a (upper b)) (n_at a g) 0 (c_at a c) ltac:(lia)) as A. rewrite low_first in A by apply D.
    pose proof (low_le contract (at_ a (lower b)) (at_ a (upper b)) (n_at a g) (S (c_at a c)) (n_at a g) L) as B. lra.
Qed.
Lemma faces g b : grid_ok g -> countable g -> doubles (lower b) -> faces_match g (covered g b) (cell_box_d g b).
Proof.
  intros Hg N D. split.
  - intros c c' d I I' F W. split.
    + rewrite cell_low, cell_high by assumption. f_equal. destruct d; try discriminate W; cbn in *; destruct F as (F1 & F2 & F3); lia.
    + intros a Na. rewrite !cell_low, !cell_high by assumption. assert (E : c_at a c = c_at a c'). { destruct d; try discriminate W; destruct a; cbn in *; destruct F as (F1 & F2 & F3); try congruence; exfalso; apply Na; reflexivity. } rewrite E. split; reflexivity.
  - intros c d I F. pose proof (no_forward_nb g c d I F) as Z. destruct (is_forward d).
    + rewrite cell_high by assumption. cbn [covered upper]. rewrite at_last. f_equal. lia.
    + rewrite cell_low. cbn [covered lower]. rewrite Z. apply low_first, D.
Qed.
Lemma corners_close g b : grid_ok g -> countable g -> box_ok b -> (forall a, bpow radix2 (-1000) <= width g b a) -> forall a i, (i <= n_at a g)%nat ->
  Rabs (low (at_ a (lower b)) (at_ a (upper b)) (n_at a g) i - (at_ a (lower b) + width g b a * INR i)) <= unit_error b a.
Proof.
  intros Hg N B H a i Hi. unfold unit_error, width. eapply Rle_trans; [apply low_error; [apply B|apply (proj1 (grid_ok_at g) Hg)|apply N|exact Hi|apply H]|]. unfold u. lra.
Qed.
Lemma strict g b : grid_ok g -> countable g -> box_ok b -> (forall a, bpow radix2 (-1000) <= width g b a /\ 2 * unit_error b a < width g b a) -> forall c, in_grid g c -> box_ok (cell_box_d g b c).
Proof.
  intros Hg N B H c I a. rewrite cell_low, cell_high by assumption. pose proof (proj1 (in_grid_at g c) I a) as L. pose proof (corners_close g b Hg N B (fun a => proj1 (H a)) a) as C. pose proof (C (c_at a c) ltac:(lia)) as C1. pose proof (C (S (c_at a c)) L) as C2. rewrite S_INR in C2. apply Rabs_le_inv in C1, C2. destruct (H a) as [_ U]. lra.
Qed.
End Family.

(** ** Neighbours have exactly the same coordinates on their common face, in double precision as in exact arithmetic. The boxes leave no gap and
    do not overlap, from the lower corner of the grid, which is exact, to the end of the last cells. Also for cells that are too small for doubles. *)
Theorem C76_faces : forall contract gi, grid_ok (gi_grid gi) -> countable (gi_grid gi) -> doubles (lower (gi_xyz gi)) ->
  exists e, let b := Box (lower (gi_xyz gi)) e in let cells c := box_xyz_d contract gi (vec_of (gi_grid gi) c) in
    faces_match (gi_grid gi) b cells /\ ordered (gi_grid gi) cells /\ no_gap (gi_grid gi) b cells /\ no_overlap (gi_grid gi) cells /\ within (gi_grid gi) b cells.
Proof.
  intros contract gi Hg N D. exists (last_corner contract (gi_grid gi) (gi_xyz gi)). cbv zeta. change (Box (lower (gi_xyz gi)) _) with (covered contract (gi_grid gi) (gi_xyz gi)).
  assert (X : forall c, in_grid (gi_grid gi) c -> cell_box_d contract (gi_grid gi) (gi_xyz gi) c = box_xyz_d contract gi (vec_of (gi_grid gi) c)) by (intros c I; unfold box_xyz_d; rewrite mat_of_vec_of by exact I; reflexivity).
  destruct (weak_tiles contract _ _ Hg N D) as (A1 & A2 & A3 & A4). split; [exact (faces_ext _ _ _ _ X (faces contract _ _ Hg N D))|]. split; [|split; [|split]].
  - intros c I. rewrite <- X by exact I. apply A1, I.
  - intros p Hp. destruct (A2 p Hp) as (c & I & C). exists c. rewrite <- X by exact I. split; assumption.
  - intros c c' p I I'. rewrite <- !X by assumption. apply A3; assumption.
  - intros c p I. rewrite <- X by assumption. apply A4, I.
Qed.
(** ** The corners are close to the exact ones. *)
Theorem C76_close : forall contract gi c a, let g := gi_grid gi in let b := gi_xyz gi in
  grid_ok g -> countable g -> box_ok b -> (forall a, bpow radix2 (-1000) <= width g b a) -> in_grid g c ->
  Rabs (at_ a (lower (box_xyz_d contract gi (vec_of g c))) - at_ a (lower (box_xyz gi (vec_of g c)))) <= unit_error b a /\
  Rabs (at_ a (upper (box_xyz_d contract gi (vec_of g c))) - at_ a (upper (box_xyz gi (vec_of g c)))) <= unit_error b a.
Proof.
  intros contract gi c a g b Hg N B H I. unfold box_xyz_d, box_xyz. fold g b. rewrite mat_of_vec_of by exact I. rewrite cell_low, cell_high, cell_lower, cell_upper by assumption. pose proof (proj1 (in_grid_at g c) I a) as L.
  replace (delta g b a) with (width g b a) by (unfold width, delta; rewrite Rabs_pos_eq; [reflexivity|specialize (B a); lra]). pose proof (corners_close contract g b Hg N B H a) as C. pose proof (C (c_at a c) ltac:(lia)) as C1. pose proof (C (S (c_at a c)) L) as C2. rewrite S_INR, (Rplus_comm (INR _) 1) in C2. split; assumption.
Qed.
(** ** If cells are wider than two units of error, the boxes are proper and tile a box whose lower corner is exact and whose upper corner is off by
    one unit of error at most. *)
Theorem C76_tiles : forall contract gi, let g := gi_grid gi in let b := gi_xyz gi in
  grid_ok g -> countable g -> box_ok b -> doubles (lower b) -> (forall a, bpow radix2 (-1000) <= width g b a /\ 2 * unit_error b a < width g b a) ->
  exists e, tiles g (Box (lower b) e) (fun c => box_xyz_d contract gi (vec_of g c)) /\ faces_match g (Box (lower b) e) (fun c => box_xyz_d contract gi (vec_of g c)) /\
            forall a, Rabs (at_ a e - at_ a (upper b)) <= unit_error b a.
Proof.
  intros contract gi g b Hg N B D H. exists (last_corner contract g b). change (Box (lower b) _) with (covered contract g b).
  assert (X : forall c, in_grid g c -> cell_box_d contract g b c = box_xyz_d contract gi (vec_of g c)) by (intros c I; unfold box_xyz_d; fold g; rewrite mat_of_vec_of by exact I; reflexivity).
  destruct (weak_tiles contract g b Hg N D) as (_ & A2 & A3 & A4). split; [|split; [exact (faces_ext _ _ _ _ X (faces contract g b Hg N D))|]].
  - apply (tiles_ext _ _ _ _ X). split; [exact (strict contract g b Hg N B H)|]. split; [exact A4|]. split; [exact A2|exact A3].
  - intros a. rewrite at_last. pose proof (corners_close contract g b Hg N B (fun a => proj1 (H a)) a (n_at a g) (le_n _)) as C. pose proof (proj1 (grid_ok_at g) Hg a) as P. apply lt_0_INR in P. replace (at_ a (lower b) + width g b a * INR (n_at a g)) with (at_ a (upper b)) in C by (unfold width; field; lra). exact C.
Qed.
(** The same in the parametric space of a B-spline grid. *)
Theorem C76_parametric : forall contract gi i, gi_bspline gi = true -> box_uvw_d contract gi i = box_xyz_d contract (Indexer (gi_grid gi) (gi_uvw gi) (gi_uvw gi) true) i.
Proof. intros contract gi i H. unfold box_uvw_d. rewrite H. reflexivity. Qed.

(** ** No operation overflows if the coordinates are at most 2^1000. *)
Theorem C76_finite : forall contract lb ub n i, lb < ub -> (0 < n)%nat -> (Z.of_nat n <= 2 ^ 53)%Z -> (i <= n)%nat -> bpow radix2 (-1000) <= (ub - lb) / INR n ->
  Rabs lb <= bpow radix2 1000 -> Rabs ub <= bpow radix2 1000 ->
  0 < to_double n /\ Rabs (fl (ub - lb)) < bpow radix2 1024 /\ Rabs (delta_d lb ub n) < bpow radix2 1024 /\ Rabs (fl (delta_d lb ub n * to_double i)) < bpow radix2 1024 /\ Rabs (low contract lb ub n i) < bpow radix2 1024.
Proof.
  intros contract lb ub n i L Hn Hb Hi Hh Al Au. set (M := bpow radix2 1000) in *. assert (M0 : 0 < M) by apply bpow_gt_0. assert (LM : 16 * M <= bpow radix2 1024). { unfold M. replace 16 with (bpow radix2 4) by (cbn; lra). rewrite <- bpow_plus. apply bpow_le. lia. }
  assert (N1 : 1 <= INR n) by (change 1 with (INR 1); apply le_INR; lia). destruct small_bpow as [S1 S2]. pose proof (bpow_gt_0 radix2 (-1000)) as P0. assert (W : bpow radix2 (-1000) <= ub - lb). { eapply Rle_trans; [exact Hh|]. apply (Rmult_le_reg_r (INR n)); [lra|]. unfold Rdiv. rewrite Rmult_assoc, Rinv_l, Rmult_1_r by lra. rewrite <- (Rmult_1_r (ub - lb)) at 1. apply Rmult_le_compat_l; lra. }
  assert (W2 : ub - lb <= 2 * M) by (apply Rabs_le_inv in Al, Au; lra). destruct (product_error lb ub n i L Hn Hb Hi Hh) as [D Q]. specialize (Q false). pose proof (low_error contract lb ub n i L Hn Hb Hi Hh) as E.
  assert (T : 0 <= (ub - lb) / INR n * INR i <= ub - lb). { split; [apply Rmult_le_pos; [lra|apply pos_INR]|]. unfold Rdiv. rewrite Rmult_assoc. rewrite <- (Rmult_1_r (ub - lb)) at 2. apply Rmult_le_compat_l; [lra|]. apply (Rmult_le_reg_l (INR n)); [lra|]. rewrite <- Rmult_assoc, Rinv_r, Rmult_1_l, Rmult_1_r by lra. apply le_INR, Hi. }
  pose proof (fl_rel (ub - lb) ltac:(lra)) as F. apply Rabs_le_inv in F, Q, E, Al, Au. unfold u in *. pose proof (Rabs_pos lb). pose proof (Rabs_pos ub). assert (AA : Rabs lb + Rabs ub <= 2 * M) by (assert (Rabs lb <= M) by (apply Rabs_le; lra); assert (Rabs ub <= M) by (apply Rabs_le; lra); lra).
  split; [rewrite to_double_exact by exact Hb; lra|]. split; [apply Rabs_def1; lra|]. split; [apply Rabs_def1; lra|]. split; apply Rabs_def1; lra.
Qed.

(** ** Not true: the last cells end at the upper corner of the grid. *)
Lemma fl_eq x e m : bpow radix2 (e - 1) <= x < bpow radix2 e -> (-1021 <= e)%Z -> Rabs (x * bpow radix2 (53 - e) - IZR m) < / 2 -> fl x = IZR m * bpow radix2 (e - 53).
Proof.
  intros B E H. assert (C : cexp radix2 double_exp x = (e - 53)%Z). { unfold cexp. rewrite (mag_unique radix2 x e). - unfold double_exp, FLT_exp. lia. - rewrite Rabs_pos_eq; [exact B|]. pose proof (bpow_gt_0 radix2 (e - 1)). lra. }
  unfold fl, round, scaled_mantissa. rewrite C. replace (- (e - 53))%Z with (53 - e)%Z by lia. rewrite (Znearest_imp _ _ m H). reflexivity.
Qed.
Lemma bpow_double e : (-1074 <= e)%Z -> is_double (bpow radix2 e). Proof. intros H. apply generic_format_bpow. unfold double_exp, FLT_exp. lia. Qed.
Lemma last_49 contract : low contract 0 1 49 49 = 9007199254740991 / 9007199254740992.
Proof.
  unfold low, place, delta_d. assert (E : fl (1 - 0) = 1) by (replace (1 - 0) with 1 by ring; apply (fl_id 1), (double_Z 1); lia). rewrite E, Rabs_R1, to_double_exact by (cbn; lia). replace (INR 49) with 49 by (cbn; lra).
  assert (D : fl (1 / 49) = 5882252574524729 / 288230376151711744). { rewrite (fl_eq (1 / 49) (-5) 5882252574524729); [cbn; lra|cbn; lra|lia|]. cbn. apply Rabs_def1; lra. }
  rewrite D. set (x := 5882252574524729 / 288230376151711744 * 49). assert (F : fl x = 9007199254740991 / 9007199254740992). { unfold x. rewrite (fl_eq _ 0 9007199254740991); [cbn; lra|cbn; lra|lia|]. cbn. apply Rabs_def1; lra. }
  destruct contract; rewrite Rplus_0_l; [exact F|]. rewrite F. rewrite <- F. apply fl_id, fl_double.
Qed.
Definition unit_box : box := Box (Pt 0 0 0) (Pt 1 1 1).
Definition fine : indexer := Indexer (Grid 49 1 1) unit_box unit_box true.
Lemma fine_ok : grid_ok (gi_grid fine) /\ countable (gi_grid fine) /\ box_ok (gi_xyz fine) /\ doubles (lower (gi_xyz fine)) /\ doubles (upper (gi_xyz fine)) /\
  (forall a, bpow radix2 (-1000) <= width (gi_grid fine) (gi_xyz fine) a /\ 2 * unit_error (gi_xyz fine) a < width (gi_grid fine) (gi_xyz fine) a).
Proof.
  split; [split; [|split]; cbn; lia|]. split; [intros []; cbn; lia|]. split; [intros []; cbn; lra|]. split; [intros []; apply (double_Z 0); lia|]. split; [intros []; apply (double_Z 1); lia|].
  intros a. assert (W : / 64 <= width (gi_grid fine) (gi_xyz fine) a) by (unfold width; destruct a; cbn; lra). split.
  - eapply Rle_trans; [|exact W]. replace (/ 64) with (bpow radix2 (-6)) by (cbn; lra). apply bpow_le. lia.
  - eapply Rlt_le_trans; [|exact W]. unfold unit_error. destruct a; cbn; rewrite ?Rabs_R0, ?Rabs_R1; lra.
Qed.
Theorem C76_end_refuted : exists gi p, let g := gi_grid gi in let b := gi_xyz gi in
  grid_ok g /\ countable g /\ box_ok b /\ doubles (lower b) /\ doubles (upper b) /\ (forall a, bpow radix2 (-1000) <= width g b a /\ 2 * unit_error b a < width g b a) /\
  in_closed b p /\ forall contract c, in_grid g c -> ~ in_closed (box_xyz_d contract gi (vec_of g c)) p.
Proof.
  exists fine, (Pt 1 0 0). destruct fine_ok as (A1 & A2 & A3 & A4 & A5 & A6). cbv zeta. split; [exact A1|]. split; [exact A2|]. split; [exact A3|]. split; [exact A4|]. split; [exact A5|]. split; [exact A6|]. split; [intros []; cbn; lra|].
  intros contract c I H. specialize (H AX). unfold box_xyz_d in H. rewrite mat_of_vec_of, cell_high in H by assumption. destruct H as [_ H]. cbn [fine gi_grid gi_xyz unit_box lower upper at_ px n_at c_at nx] in H. pose proof (proj1 (in_grid_at _ c) I AX) as L. cbn [fine gi_grid n_at c_at nx] in L.
  pose proof (low_le contract 0 1 49 (S (cx c)) 49 L) as M. rewrite last_49 in M. lra.
Qed.
(** ** Not true: every cell has a positive width. *)
Definition thin : indexer := Indexer (Grid 4 1 1) (Box (Pt 1 0 0) (Pt (1 + bpow radix2 (-52)) 1 1)) unit_box true.
Lemma thin_0 contract : low contract 1 (1 + bpow radix2 (-52)) 4 0 = 1 /\ low contract 1 (1 + bpow radix2 (-52)) 4 1 = 1.
Proof.
  split; [apply low_first, (double_Z 1); lia|]. unfold low, place, delta_d. replace (1 + bpow radix2 (-52) - 1) with (bpow radix2 (-52)) by ring. rewrite (fl_id (bpow radix2 (-52))) by (apply bpow_double; lia). rewrite Rabs_pos_eq by apply bpow_ge_0. rewrite !to_double_exact by (cbn; lia).
  replace (bpow radix2 (-52) / INR 4) with (bpow radix2 (-54)) by (cbn; lra). rewrite (fl_id (bpow radix2 (-54))) by (apply bpow_double; lia). change (INR 1) with 1. rewrite Rmult_1_r. rewrite (fl_id (bpow radix2 (-54))) by (apply bpow_double; lia).
  replace (if contract then bpow radix2 (-54) else bpow radix2 (-54)) with (bpow radix2 (-54)) by (destruct contract; reflexivity). rewrite (fl_eq _ 1 4503599627370496); [cbn; lra|cbn; lra|lia|]. cbn. apply Rabs_def1; lra.
Qed.
Theorem C76_width_refuted : exists gi c a, let g := gi_grid gi in let b := gi_xyz gi in
  grid_ok g /\ countable g /\ box_ok b /\ doubles (lower b) /\ doubles (upper b) /\ in_grid g c /\
  forall contract, at_ a (lower (box_xyz_d contract gi (vec_of g c))) = at_ a (upper (box_xyz_d contract gi (vec_of g c))).
Proof.
  exists thin, (C3 0 0 0), AX. cbv zeta. assert (I : in_grid (gi_grid thin) (C3 0 0 0)) by (split; [|split]; cbn; lia). assert (N : countable (gi_grid thin)) by (intros []; cbn; lia).
  split; [split; [|split]; cbn; lia|]. split; [exact N|]. split. { pose proof (bpow_gt_0 radix2 (-52)). intros []; cbn [thin gi_xyz lower upper at_ px py pz]; lra. }
  split. { intros []; cbn [thin gi_xyz lower at_ px py pz]; [apply (double_Z 1)|apply (double_Z 0)|apply (double_Z 0)]; lia. }
  split. { intros []; cbn [thin gi_xyz upper at_ px py pz]; [|apply (double_Z 1); lia|apply (double_Z 1); lia]. apply generic_format_FLT. exists (Float radix2 4503599627370497 (-52)); cbn [Fnum Fexp]; [unfold F2R; cbn; lra|reflexivity|lia]. }
  split; [exact I|]. intros contract. unfold box_xyz_d. rewrite mat_of_vec_of, cell_low, cell_high by assumption. cbn [thin gi_grid gi_xyz lower upper at_ px n_at c_at nx cx]. destruct (thin_0 contract) as [-> ->]. reflexivity.
Qed.
Print Assumptions C76_faces. Print Assumptions C76_close. Print Assumptions C76_tiles. Print Assumptions C76_parametric. Print Assumptions C76_finite. Print Assumptions C76_end_refuted. Print Assumptions C76_width_refuted.

(** ** Concrete grids: [fine] has 49 cells of width 1/49 (C76_close, C76_tiles, C76_faces), [thin] has cells narrower than the distance of doubles (C76_faces). *)
Example C76_example : grid_ok (gi_grid fine) /\ countable (gi_grid fine) /\ box_ok (gi_xyz fine) /\ doubles (lower (gi_xyz fine)) /\
  (forall a, bpow radix2 (-1000) <= width (gi_grid fine) (gi_xyz fine) a /\ 2 * unit_error (gi_xyz fine) a < width (gi_grid fine) (gi_xyz fine) a) /\ in_grid (gi_grid fine) (C3 48 0 0) /\ gi_bspline fine = true /\
  forall contract, px (upper (box_xyz_d contract fine (vec_of (gi_grid fine) (C3 48 0 0)))) = 1 - / 9007199254740992.
Proof.
  destruct fine_ok as (A1 & A2 & A3 & A4 & A5 & A6). split; [exact A1|]. split; [exact A2|]. split; [exact A3|]. split; [exact A4|]. split; [exact A6|]. assert (I : in_grid (gi_grid fine) (C3 48 0 0)) by (split; [|split]; cbn; lia). split; [exact I|]. split; [reflexivity|].
  intros contract. unfold box_xyz_d. rewrite mat_of_vec_of by exact I. change (px ?p) with (at_ AX p). rewrite cell_high by assumption. cbn [fine gi_grid gi_xyz unit_box lower upper at_ px n_at c_at nx cx]. rewrite last_49. lra.
Qed.
Example C76_example_finite : 0 < 1 /\ bpow radix2 (-1000) <= (1 - 0) / INR 49 /\ Rabs 0 <= bpow radix2 1000 /\ Rabs 1 <= bpow radix2 1000.
Proof.
  split; [lra|]. split. { apply Rle_trans with (bpow radix2 (-6)); [apply bpow_le; lia|]. cbn. lra. } rewrite Rabs_R0, Rabs_R1. split; [apply bpow_ge_0|]. change 1 with (bpow radix2 0). apply bpow_le. lia.
Qed.
