(** The boxes of the cells and the enlarged boxes of the flood fill. *)
From Coq Require Import Reals List Arith Bool ZArith Lia Lra Psatz.
From Verif Require Import Geo GridModel GridSpec GridProofs GridGeoModel GridStoreModel MappingModel TrimmedQuadModel MeshModel MeshGeoModel MeshGeoProofs ClipModel SearchModel GeoQueryModel SatMain GeoQueryProofs RayProofs CastProofs TrimSearchModel FloodModel FloodSpec FloodGeoModel.
Import ListNotations.
Local Open Scope R_scope.

(** The cells are wider than a hundred times the tolerance, and small enough for their sizes to be doubles. *)
Definition sized (gi : indexer) : Prop :=
  (forall a, 100 * cell_tol gi < delta (gi_grid gi) (gi_xyz gi) a) /\
  4 * (delta (gi_grid gi) (gi_xyz gi) AX + delta (gi_grid gi) (gi_xyz gi) AY + delta (gi_grid gi) (gi_xyz gi) AZ) < maxd.

Section Cells.
Variable gi : indexer.
Notation gr := (gi_grid gi).
Notation dl := (delta (gi_grid gi) (gi_xyz gi)).
Notation tau := (cell_tol gi).
Hypothesis Sz : sized gi.

Definition low (i : nat) (a : axis) : R := at_ a (lower (box_xyz gi i)).
Lemma low_eq i a : low i a = at_ a (lower (gi_xyz gi)) + dl a * INR (c_at a (mat_of gr i)).
Proof. unfold low, box_xyz, cell_box. destruct a; reflexivity. Qed.
Lemma high_eq i a : at_ a (upper (box_xyz gi i)) = low i a + dl a.
Proof. rewrite low_eq. unfold box_xyz, cell_box. destruct a; cbn [upper at_ px py pz c_at]; ring. Qed.
Lemma tau_ge : / 10 ^ 12 <= tau.
Proof. apply Rmax_r. Qed.
Lemma twelve : 0 < / 10 ^ 12 <= 1/1000.
Proof. split; [apply Rinv_0_lt_compat, pow_lt; lra|]. apply (Rmult_le_reg_l (10 ^ 12)); [apply pow_lt; lra|]. rewrite Rinv_r by (apply pow_nonzero; lra). lra. Qed.
Lemma tau_pos : 0 < tau.
Proof. assert (H := tau_ge). assert (K := twelve). lra. Qed.
Lemma tau_dl a : dl a * / 10 ^ 12 <= tau.
Proof.
  unfold cell_tol. assert (K := twelve). eapply Rle_trans; [|apply Rmax_l]. apply Rmult_le_compat_r; [lra|].
  destruct a; [apply Rmax_l|eapply Rle_trans; [|apply Rmax_r]; apply Rmax_l|eapply Rle_trans; [|apply Rmax_r]; apply Rmax_r].
Qed.
Lemma tau_max e : (forall a, dl a * / 10 ^ 12 <= e) -> / 10 ^ 12 <= e -> tau <= e.
Proof.
  intros H K. assert (Z := twelve). unfold cell_tol. cbv zeta. apply Rmax_lub; [|exact K]. assert (Hx := H AX). assert (Hy := H AY). assert (Hz := H AZ).
  unfold Rmax. destruct (Rle_dec (dl AY) (dl AZ)); [destruct (Rle_dec (dl AX) (dl AZ))|destruct (Rle_dec (dl AX) (dl AY))]; assumption.
Qed.
Lemma rel_eq l u : relative_tol l u (/ 10 ^ 12) = Rmax (Rmax (px u - px l) (Rmax (py u - py l) (pz u - pz l)) * / 10 ^ 12) (/ 10 ^ 12).
Proof. reflexivity. Qed.
Lemma cell_snap i : relative_tol (lower (box_xyz gi i)) (upper (box_xyz gi i)) (/ 10 ^ 12) = tau.
Proof.
  rewrite rel_eq. assert (H : forall a, at_ a (upper (box_xyz gi i)) - at_ a (lower (box_xyz gi i)) = dl a) by (intros a; rewrite high_eq; unfold low; lra).
  assert (Hx := H AX). assert (Hy := H AY). assert (Hz := H AZ). cbn [at_] in Hx, Hy, Hz. rewrite Hx, Hy, Hz. reflexivity.
Qed.

(** *** Neighbours *)
Definition step (d : dir) (a : axis) : R :=
  match d, a with XF, AX | YF, AY | ZF, AZ => dl a | XB, AX | YB, AY | ZB, AZ => - dl a | _, _ => 0 end.
Lemma nb_low d i j a : nb gr d i j -> low j a = low i a + step d a.
Proof.
  intros (_ & _ & H). rewrite !low_eq.
  assert (K : INR (c_at a (mat_of gr j)) = INR (c_at a (mat_of gr i)) + match d, a with XF, AX | YF, AY | ZF, AZ => 1 | XB, AX | YB, AY | ZB, AZ => - 1 | _, _ => 0 end).
  { destruct d, a; cbn [face_nb c_at] in *; destruct H as (H1 & H2 & H3);
      try (rewrite ?H1, ?H2, ?H3; rewrite ?plus_INR; cbn [INR]; lra).
    - rewrite <- H1, plus_INR. cbn [INR]. lra.
    - rewrite <- H2, plus_INR. cbn [INR]. lra.
    - rewrite <- H3, plus_INR. cbn [INR]. lra. }
  rewrite K. destruct d, a; cbn [step]; ring.
Qed.

(** *** Enlarged boxes *)
Definition off_low (d : dir) (a : axis) : R := match d, a with XF, AX | YF, AY | ZF, AZ => - (10 * tau) | _, _ => 0 end.
Definition off_high (d : dir) (a : axis) : R := match d, a with XB, AX | YB, AY | ZB, AZ => 10 * tau | _, _ => 0 end.
Definition ext (d : dir) (a : axis) : R := off_high d a - off_low d a.
Lemma pert_low n d a : at_ a (lower (perturbed gi n d)) = low n a + off_low d a.
Proof. unfold perturbed, low. destruct d, a; reflexivity. Qed.
Lemma pert_high n d a : at_ a (upper (perturbed gi n d)) = low n a + dl a + off_high d a.
Proof. rewrite <- high_eq. unfold perturbed. destruct d, a; reflexivity. Qed.
Definition ptau (d : dir) : R := Rmax (Rmax (dl AX + ext d AX) (Rmax (dl AY + ext d AY) (dl AZ + ext d AZ)) * / 10 ^ 12) (/ 10 ^ 12).
Lemma pert_snap n d : relative_tol (lower (perturbed gi n d)) (upper (perturbed gi n d)) (/ 10 ^ 12) = ptau d.
Proof.
  rewrite rel_eq. assert (H : forall a, at_ a (upper (perturbed gi n d)) - at_ a (lower (perturbed gi n d)) = dl a + ext d a) by (intros a; rewrite pert_high, pert_low; unfold ext; lra).
  assert (Hx := H AX). assert (Hy := H AY). assert (Hz := H AZ). cbn [at_] in Hx, Hy, Hz. rewrite Hx, Hy, Hz. reflexivity.
Qed.
Lemma ext_reverse d a : ext (reverse_dir d) a = ext d a.
Proof. unfold ext. destruct d, a; cbn [reverse_dir off_low off_high]; lra. Qed.
Lemma ptau_reverse d : ptau (reverse_dir d) = ptau d.
Proof. unfold ptau. rewrite !ext_reverse. reflexivity. Qed.
Lemma ext_range d a : 0 <= ext d a <= 10 * tau.
Proof. assert (H := tau_pos). unfold ext. destruct d, a; cbn [off_low off_high]; lra. Qed.
Lemma ptau_low d : tau <= ptau d.
Proof.
  assert (K := twelve). apply tau_max; [|apply Rmax_r]. intros a. unfold ptau. eapply Rle_trans; [|apply Rmax_l]. apply Rmult_le_compat_r; [lra|]. assert (E := ext_range d a).
  destruct a; [eapply Rle_trans; [|apply Rmax_l]|eapply Rle_trans; [|eapply Rle_trans; [apply Rmax_l|apply Rmax_r]]|eapply Rle_trans; [|eapply Rle_trans; [apply Rmax_r|apply Rmax_r]]]; lra.
Qed.
Lemma ptau_high d : ptau d <= 2 * tau.
Proof.
  assert (K := twelve). assert (T := tau_pos). assert (G := tau_ge). unfold ptau. apply Rmax_lub; [|lra].
  assert (H : forall a, (dl a + ext d a) * / 10 ^ 12 <= 2 * tau).
  { intros a. assert (E := ext_range d a). assert (D := tau_dl a). assert (ext d a * / 10 ^ 12 <= 10 * tau * (1/1000)) by (apply Rmult_le_compat; lra). lra. }
  assert (Hx := H AX). assert (Hy := H AY). assert (Hz := H AZ).
  unfold Rmax. destruct (Rle_dec (dl AY + ext d AY) (dl AZ + ext d AZ)); [destruct (Rle_dec (dl AX + ext d AX) (dl AZ + ext d AZ))|destruct (Rle_dec (dl AX + ext d AX) (dl AY + ext d AY))]; assumption.
Qed.
Lemma dl_big a : 100 * tau < dl a.
Proof. apply (proj1 Sz). Qed.

(** *** Points of the boxes *)
Definition in_cell (i : nat) (x : pt) : Prop := forall a, low i a + tau <= at_ a x <= low i a + dl a - tau.
Definition in_pert (n : nat) (d : dir) (m : R) (x : pt) : Prop := forall a, low n a + off_low d a + m <= at_ a x <= low n a + dl a + off_high d a - m.
Lemma in_cell_box i x : in_box (lower (box_xyz gi i)) (upper (box_xyz gi i)) tau x <-> in_cell i x.
Proof. unfold in_box, in_cell. split; intros H a; specialize (H a); rewrite ?high_eq in *; unfold low in *; exact H. Qed.
Lemma in_pert_box n d m x : in_box (lower (perturbed gi n d)) (upper (perturbed gi n d)) m x <-> in_pert n d m x.
Proof. unfold in_box, in_pert. split; intros H a; specialize (H a); rewrite ?pert_low, ?pert_high in *; exact H. Qed.
Lemma centre_at i a : at_ a (centre_of gi i) = low i a + dl a / 2.
Proof.
  unfold centre_of. assert (E : at_ a (vscale (1/2) (vadd (lower (box_xyz gi i)) (upper (box_xyz gi i)))) = 1/2 * (at_ a (lower (box_xyz gi i)) + at_ a (upper (box_xyz gi i)))) by (destruct a; reflexivity).
  rewrite E, high_eq. unfold low. lra.
Qed.
Lemma centre_in_cell i : in_cell i (centre_of gi i).
Proof. intros a. rewrite centre_at. assert (H := dl_big a). assert (T := tau_pos). lra. Qed.

(** Points between the centres of neighbours are in the first cell or in the enlarged box of the second. *)
Lemma three_axes (P : axis -> Prop) : P AX -> P AY -> P AZ -> forall a, P a.
Proof. intros X Y Z []; assumption. Qed.
Ltac axes H := let X := fresh H "x" in let Y := fresh H "y" in let Z := fresh H "z" in assert (X := H AX); assert (Y := H AY); assert (Z := H AZ); clear H.
Lemma link_cover d i j x : nb gr d i j -> (forall a, exists s, 0 <= s <= 1 /\ at_ a x = low i a + dl a / 2 + s * step d a) -> in_cell i x \/ in_pert j d (ptau d) x.
Proof.
  intros N X. assert (T := tau_pos). assert (P1 := ptau_low d). assert (P2 := ptau_high d). assert (D := dl_big). assert (Nl := fun a => nb_low d i j a N). clear N.
  axes X. destruct Xx as (sx & Sx & Xx), Xy as (sy & Sy & Xy), Xz as (sz & Sz' & Xz). axes D. axes Nl. unfold in_cell, in_pert.
  destruct d; cbn [step off_low off_high] in *.
  - destruct (Rle_dec (at_ AX x) (low i AX + dl AX - tau)) as [C|C]; [left|right]; apply three_axes; rewrite ?Nlx, ?Nly, ?Nlz; cbn [off_low off_high]; nra.
  - destruct (Rle_dec (low i AX + tau) (at_ AX x)) as [C|C]; [left|right]; apply three_axes; rewrite ?Nlx, ?Nly, ?Nlz; cbn [off_low off_high]; nra.
  - destruct (Rle_dec (at_ AY x) (low i AY + dl AY - tau)) as [C|C]; [left|right]; apply three_axes; rewrite ?Nlx, ?Nly, ?Nlz; cbn [off_low off_high]; nra.
  - destruct (Rle_dec (low i AY + tau) (at_ AY x)) as [C|C]; [left|right]; apply three_axes; rewrite ?Nlx, ?Nly, ?Nlz; cbn [off_low off_high]; nra.
  - destruct (Rle_dec (at_ AZ x) (low i AZ + dl AZ - tau)) as [C|C]; [left|right]; apply three_axes; rewrite ?Nlx, ?Nly, ?Nlz; cbn [off_low off_high]; nra.
  - destruct (Rle_dec (low i AZ + tau) (at_ AZ x)) as [C|C]; [left|right]; apply three_axes; rewrite ?Nlx, ?Nly, ?Nlz; cbn [off_low off_high]; nra.
Qed.
(** A point of one enlarged box that is in none of the two cells is in the other enlarged box. *)
Lemma swap_cover d i j x : nb gr d i j -> in_pert j d (ptau d) x -> in_cell i x \/ in_cell j x \/ in_pert i (reverse_dir d) (ptau d) x.
Proof.
  intros N X. assert (T := tau_pos). assert (P1 := ptau_low d). assert (P2 := ptau_high d). assert (D := dl_big). assert (Nl := fun a => nb_low d i j a N). clear N.
  unfold in_pert in X. axes X. axes D. axes Nl. unfold in_cell, in_pert.
  destruct d; cbn [step off_low off_high reverse_dir] in *; rewrite Nlx, Nly, Nlz in *.
  - destruct (Rle_dec (at_ AX x) (low i AX + dl AX - tau)) as [C|C]; [left; apply three_axes; lra|]. destruct (Rle_dec (low i AX + dl AX + tau) (at_ AX x)) as [C'|C']; [right; left; apply three_axes; rewrite ?Nlx, ?Nly, ?Nlz; lra|].
    right; right; apply three_axes; cbn [off_low off_high]; lra.
  - destruct (Rle_dec (low i AX + tau) (at_ AX x)) as [C|C]; [left; apply three_axes; lra|]. destruct (Rle_dec (at_ AX x) (low i AX - tau)) as [C'|C']; [right; left; apply three_axes; rewrite ?Nlx, ?Nly, ?Nlz; lra|].
    right; right; apply three_axes; cbn [off_low off_high]; lra.
  - destruct (Rle_dec (at_ AY x) (low i AY + dl AY - tau)) as [C|C]; [left; apply three_axes; lra|]. destruct (Rle_dec (low i AY + dl AY + tau) (at_ AY x)) as [C'|C']; [right; left; apply three_axes; rewrite ?Nlx, ?Nly, ?Nlz; lra|].
    right; right; apply three_axes; cbn [off_low off_high]; lra.
  - destruct (Rle_dec (low i AY + tau) (at_ AY x)) as [C|C]; [left; apply three_axes; lra|]. destruct (Rle_dec (at_ AY x) (low i AY - tau)) as [C'|C']; [right; left; apply three_axes; rewrite ?Nlx, ?Nly, ?Nlz; lra|].
    right; right; apply three_axes; cbn [off_low off_high]; lra.
  - destruct (Rle_dec (at_ AZ x) (low i AZ + dl AZ - tau)) as [C|C]; [left; apply three_axes; lra|]. destruct (Rle_dec (low i AZ + dl AZ + tau) (at_ AZ x)) as [C'|C']; [right; left; apply three_axes; rewrite ?Nlx, ?Nly, ?Nlz; lra|].
    right; right; apply three_axes; cbn [off_low off_high]; lra.
  - destruct (Rle_dec (low i AZ + tau) (at_ AZ x)) as [C|C]; [left; apply three_axes; lra|]. destruct (Rle_dec (at_ AZ x) (low i AZ - tau)) as [C'|C']; [right; left; apply three_axes; rewrite ?Nlx, ?Nly, ?Nlz; lra|].
    right; right; apply three_axes; cbn [off_low off_high]; lra.
Qed.
(** Points between the centre of a cell and a point of the enlarged box of a neighbour are in the cell or well in that box. *)
Lemma sight_cover d i j c s x : nb gr d i j -> in_pert j d (ptau d) c -> 0 <= s <= 1 -> (forall a, at_ a x = low i a + dl a / 2 + s * (at_ a c - (low i a + dl a / 2))) ->
  in_cell i x \/ forall a, low j a + off_low d a + / 10 * ptau d < at_ a x < low j a + dl a + off_high d a - / 10 * ptau d.
Proof.
  intros N C S X. assert (T := tau_pos). assert (P1 := ptau_low d). assert (P2 := ptau_high d). assert (D := dl_big). assert (Nl := fun a => nb_low d i j a N). clear N.
  unfold in_pert in C.
  assert (M : forall a, (low i a + dl a / 2 <= at_ a x <= at_ a c) \/ (at_ a c <= at_ a x <= low i a + dl a / 2)).
  { intros a. rewrite X. destruct (Rle_dec (low i a + dl a / 2) (at_ a c)); [left|right]; nra. }
  clear X. axes C. axes D. axes Nl. axes M. unfold in_cell.
  destruct d; cbn [step off_low off_high] in *; rewrite Nlx, Nly, Nlz in *.
  - destruct (Rle_dec (at_ AX x) (low i AX + dl AX - tau)) as [K|K]; [left|right]; apply three_axes; rewrite ?Nlx, ?Nly, ?Nlz; cbn [off_low off_high]; lra.
  - destruct (Rle_dec (low i AX + tau) (at_ AX x)) as [K|K]; [left|right]; apply three_axes; rewrite ?Nlx, ?Nly, ?Nlz; cbn [off_low off_high]; lra.
  - destruct (Rle_dec (at_ AY x) (low i AY + dl AY - tau)) as [K|K]; [left|right]; apply three_axes; rewrite ?Nlx, ?Nly, ?Nlz; cbn [off_low off_high]; lra.
  - destruct (Rle_dec (low i AY + tau) (at_ AY x)) as [K|K]; [left|right]; apply three_axes; rewrite ?Nlx, ?Nly, ?Nlz; cbn [off_low off_high]; lra.
  - destruct (Rle_dec (at_ AZ x) (low i AZ + dl AZ - tau)) as [K|K]; [left|right]; apply three_axes; rewrite ?Nlx, ?Nly, ?Nlz; cbn [off_low off_high]; lra.
  - destruct (Rle_dec (low i AZ + tau) (at_ AZ x)) as [K|K]; [left|right]; apply three_axes; rewrite ?Nlx, ?Nly, ?Nlz; cbn [off_low off_high]; lra.
Qed.
(** The enlarged box is away from the centre, on the side of the neighbour. *)
Lemma pert_away d i j : nb gr d i j -> exists a, (forall x, at_ a (lower (perturbed gi j d)) - tau <= at_ a x -> low i a + dl a / 2 + 30 * tau < at_ a x) \/
  (forall x, at_ a x <= at_ a (upper (perturbed gi j d)) + tau -> at_ a x < low i a + dl a / 2 - 30 * tau).
Proof.
  intros N. assert (T := tau_pos). assert (D := dl_big). assert (Nl := fun a => nb_low d i j a N). clear N.
  destruct d; [exists AX; left | exists AX; right | exists AY; left | exists AY; right | exists AZ; left | exists AZ; right]; intros x; rewrite ?pert_low, ?pert_high, Nl; cbn [step off_low off_high]; axes D; lra.
Qed.
End Cells.
