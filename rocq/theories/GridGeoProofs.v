From Coq Require Import Reals Lra Lia Arith ZArith.
From Verif Require Import Geo GridModel GridSpec GridProofs GridGeoModel GridGeoSpec.
Local Open Scope R_scope.

Lemma in_grid_at g c : in_grid g c <-> forall a, (c_at a c < n_at a g)%nat.
Proof.
  split; [intros (H1 & H2 & H3) [| |]; assumption|].
  intros H. exact (conj (H AX) (conj (H AY) (H AZ))).
Qed.
Lemma grid_ok_at g : grid_ok g <-> forall a, (0 < n_at a g)%nat.
Proof.
  split; [intros (H1 & H2 & H3) [| |]; assumption|].
  intros H. exact (conj (H AX) (conj (H AY) (H AZ))).
Qed.
Lemma c3_eq_at c c' : (forall a, c_at a c = c_at a c') -> c = c'.
Proof. intros H. apply c3_eq; [exact (H AX) | exact (H AY) | exact (H AZ)]. Qed.

Lemma cell_lower g b c a : at_ a (lower (cell_box g b c)) = at_ a (lower b) + delta g b a * INR (c_at a c).
Proof. destruct a; reflexivity. Qed.
Lemma cell_upper g b c a : at_ a (upper (cell_box g b c)) = at_ a (lower b) + delta g b a * (1 + INR (c_at a c)).
Proof. destruct a; reflexivity. Qed.

Lemma delta_eq g b a : box_ok b -> (0 < n_at a g)%nat ->
  0 < delta g b a /\ delta g b a * INR (n_at a g) = at_ a (upper b) - at_ a (lower b).
Proof.
  intros Hb Hn. specialize (Hb a). unfold delta. rewrite Rabs_pos_eq by lra.
  assert (0 < INR (n_at a g)) by (apply lt_0_INR; assumption).
  split; [apply Rdiv_lt_0_compat; lra | field; lra].
Qed.

(** 1D location of a point *)
Lemma locate1 (l d x : R) (n : nat) : 0 < d -> l <= x <= l + d * INR n -> (0 < n)%nat ->
  exists i, (i < n)%nat /\ l + d * INR i <= x <= l + d * (1 + INR i).
Proof.
  intros Hd. induction n as [|n IH]; intros Hx Hn; [lia|].
  destruct (Rle_dec x (l + d * INR n)) as [Hle|Hgt].
  - destruct n as [|n].
    + exists 0%nat. split; [lia|]. simpl in *. lra.
    + destruct IH as (i & Hi & H); [lra | lia |]. exists i; split; [lia | assumption].
  - exists n. split; [lia|]. rewrite S_INR in Hx. lra.
Qed.

Lemma cells_cover g b p : grid_ok g -> box_ok b -> in_closed b p ->
  exists c, in_grid g c /\ in_closed (cell_box g b c) p.
Proof.
  intros Hg Hb Hp.
  assert (H : forall a, exists i, (i < n_at a g)%nat /\
             at_ a (lower b) + delta g b a * INR i <= at_ a p <= at_ a (lower b) + delta g b a * (1 + INR i)).
  { intros a. destruct (delta_eq g b a Hb) as [Hd He]; [apply grid_ok_at; assumption|].
    apply locate1; [assumption | specialize (Hp a); lra | apply grid_ok_at; assumption]. }
  destruct (H AX) as (i & Hi & Ei), (H AY) as (j & Hj & Ej), (H AZ) as (k & Hk & Ek).
  exists (C3 i j k). split; [exact (conj Hi (conj Hj Hk))|].
  intros [| |]; assumption.
Qed.

Lemma idx_le_of_lt d i j x l : 0 < d -> l + d * INR i < x -> x <= l + d * (1 + INR j) -> (i <= j)%nat.
Proof.
  intros Hd H1 H2. destruct (le_lt_dec i j) as [|Hlt]; [assumption|exfalso].
  apply Nat.le_succ_l in Hlt. apply le_INR in Hlt. rewrite S_INR in Hlt.
  assert (d * (INR j + 1) <= d * INR i) by (apply Rmult_le_compat_l; lra). lra.
Qed.

Lemma cells_disjoint g b c c' p : grid_ok g -> box_ok b ->
  in_open (cell_box g b c) p -> in_closed (cell_box g b c') p -> c = c'.
Proof.
  intros Hg Hb H H'. apply c3_eq_at; intros a.
  destruct (delta_eq g b a Hb) as [Hd _]; [apply grid_ok_at; assumption|].
  specialize (H a); specialize (H' a). rewrite cell_lower, cell_upper in *.
  apply Nat.le_antisymm.
  - eapply idx_le_of_lt with (x := at_ a p); [exact Hd | apply H | apply H'].
  - destruct (le_lt_dec (c_at a c') (c_at a c)) as [|Hlt]; [assumption|exfalso].
    apply Nat.le_succ_l in Hlt. apply le_INR in Hlt. rewrite S_INR in Hlt.
    assert (delta g b a * (INR (c_at a c) + 1) <= delta g b a * INR (c_at a c')) by (apply Rmult_le_compat_l; lra). lra.
Qed.

Lemma cell_box_ok g b c : grid_ok g -> box_ok b -> box_ok (cell_box g b c).
Proof.
  intros Hg Hb a. rewrite cell_lower, cell_upper.
  destruct (delta_eq g b a Hb) as [Hd _]; [apply grid_ok_at; assumption|]. lra.
Qed.

Lemma cell_in_box g b c p : grid_ok g -> box_ok b -> in_grid g c -> in_closed (cell_box g b c) p -> in_closed b p.
Proof.
  intros Hg Hb Hc Hp a. specialize (Hp a). rewrite cell_lower, cell_upper in Hp.
  destruct (delta_eq g b a Hb) as [Hd He]; [apply grid_ok_at; assumption|].
  rewrite in_grid_at in Hc. specialize (Hc a). apply Nat.le_succ_l in Hc. apply le_INR in Hc. rewrite S_INR in Hc.
  assert (delta g b a * (INR (c_at a c) + 1) <= delta g b a * INR (n_at a g)) by (apply Rmult_le_compat_l; lra).
  assert (0 <= delta g b a * INR (c_at a c)) by (apply Rmult_le_pos; [lra | apply pos_INR]). lra.
Qed.


Lemma cells_share_face g b c c' d : face_nb d c c' -> is_forward d = true ->
  at_ (axis_of d) (upper (cell_box g b c)) = at_ (axis_of d) (lower (cell_box g b c')) /\
  (forall a, a <> axis_of d -> at_ a (lower (cell_box g b c)) = at_ a (lower (cell_box g b c')) /\
                               at_ a (upper (cell_box g b c)) = at_ a (upper (cell_box g b c'))).
Proof.
  intros H Hd. destruct d; try discriminate; cbn [axis_of face_nb] in *; destruct H as (H1 & H2 & H3);
    (split; [rewrite cell_upper, cell_lower; unfold c_at; rewrite ?H1, ?H2, ?H3, plus_INR; simpl; ring |]);
    intros [| |] Ha; try (exfalso; apply Ha; reflexivity); rewrite !cell_upper, !cell_lower; unfold c_at;
    rewrite ?H1, ?H2, ?H3; split; reflexivity.
Qed.

Lemma cell_first g b c a : c_at a c = 0%nat -> at_ a (lower (cell_box g b c)) = at_ a (lower b).
Proof. intros E. rewrite cell_lower, E. simpl. ring. Qed.
Lemma cell_last g b c a : grid_ok g -> box_ok b -> S (c_at a c) = n_at a g ->
  at_ a (upper (cell_box g b c)) = at_ a (upper b).
Proof.
  intros Hg Hb E. rewrite cell_upper.
  destruct (delta_eq g b a Hb) as [Hd He]; [apply grid_ok_at; assumption|].
  rewrite <- E, S_INR in He. replace (1 + INR (c_at a c)) with (INR (c_at a c) + 1) by ring. lra.
Qed.

Lemma cell_volume g b c : grid_ok g -> box_ok b ->
  box_volume (cell_box g b c) * INR (num_elements g) = box_volume b.
Proof.
  intros Hg Hb. unfold box_volume, num_elements. rewrite !mult_INR.
  pose proof (cell_lower g b c AX). pose proof (cell_lower g b c AY). pose proof (cell_lower g b c AZ).
  pose proof (cell_upper g b c AX). pose proof (cell_upper g b c AY). pose proof (cell_upper g b c AZ).
  destruct (delta_eq g b AX Hb) as [_ E1]; [apply Hg|].
  destruct (delta_eq g b AY Hb) as [_ E2]; [apply Hg|].
  destruct (delta_eq g b AZ Hb) as [_ E3]; [apply Hg|].
  cbn [at_] in *.
  replace (px (upper (cell_box g b c)) - px (lower (cell_box g b c))) with (delta g b AX) by lra.
  replace (py (upper (cell_box g b c)) - py (lower (cell_box g b c))) with (delta g b AY) by lra.
  replace (pz (upper (cell_box g b c)) - pz (lower (cell_box g b c))) with (delta g b AZ) by lra.
  rewrite <- E1, <- E2, <- E3. simpl n_at. ring.
Qed.

Lemma no_forward_nb g c d : in_grid g c -> (forall c', in_grid g c' -> ~ face_nb d c c') ->
  if is_forward d then S (c_at (axis_of d) c) = n_at (axis_of d) g else c_at (axis_of d) c = 0%nat.
Proof.
  intros (H1 & H2 & H3) H. destruct c as [x y z]; cbn [cx cy cz] in *.
  destruct d; cbn [is_forward axis_of c_at n_at cx cy cz].
  - destruct (Nat.eq_dec (S x) (nx g)); [assumption|exfalso].
    apply (H (C3 (x+1) y z)); unfold in_grid, face_nb; simpl; lia.
  - destruct (Nat.eq_dec x 0); [assumption|exfalso].
    apply (H (C3 (x-1) y z)); unfold in_grid, face_nb; simpl; lia.
  - destruct (Nat.eq_dec (S y) (ny g)); [assumption|exfalso].
    apply (H (C3 x (y+1) z)); unfold in_grid, face_nb; simpl; lia.
  - destruct (Nat.eq_dec y 0); [assumption|exfalso].
    apply (H (C3 x (y-1) z)); unfold in_grid, face_nb; simpl; lia.
  - destruct (Nat.eq_dec (S z) (nz g)); [assumption|exfalso].
    apply (H (C3 x y (z+1))); unfold in_grid, face_nb; simpl; lia.
  - destruct (Nat.eq_dec z 0); [assumption|exfalso].
    apply (H (C3 x y (z-1))); unfold in_grid, face_nb; simpl; lia.
Qed.

Lemma cell_box_tiles g b : grid_ok g -> box_ok b -> tiles g b (cell_box g b).
Proof.
  intros Hg Hb. split; [|split; [|split]].
  - intros; apply cell_box_ok; assumption.
  - intros; eapply cell_in_box; eauto.
  - intros; apply cells_cover; assumption.
  - intros; eapply cells_disjoint; eauto.
Qed.

Lemma cell_box_faces g b : grid_ok g -> box_ok b -> faces_match g b (cell_box g b).
Proof.
  intros Hg Hb. split.
  - intros; apply cells_share_face; assumption.
  - intros c d Hc H. pose proof (no_forward_nb g c d Hc H) as E.
    destruct (is_forward d); [apply cell_last; assumption | apply cell_first; assumption].
Qed.

Lemma tiles_ext g b f f' : (forall c, in_grid g c -> f c = f' c) -> tiles g b f -> tiles g b f'.
Proof.
  intros E (H1 & H2 & H3 & H4). split; [|split; [|split]].
  - intros c Hc. rewrite <- E by assumption. auto.
  - intros c p Hc. rewrite <- E by assumption. eauto.
  - intros p Hp. destruct (H3 p Hp) as (c & Hc & H). exists c. rewrite <- E by assumption. auto.
  - intros c c' p Hc Hc'. rewrite <- !E by assumption. eauto.
Qed.
Lemma faces_ext g b f f' : (forall c, in_grid g c -> f c = f' c) -> faces_match g b f -> faces_match g b f'.
Proof.
  intros E (H1 & H2). split.
  - intros c c' d Hc Hc'. rewrite <- !E by assumption. apply H1; assumption.
  - intros c d Hc. rewrite <- !E by assumption. apply H2; assumption.
Qed.

Lemma box_xyz_tiles gi : grid_ok (gi_grid gi) -> box_ok (gi_xyz gi) ->
  tiles (gi_grid gi) (gi_xyz gi) (fun c => box_xyz gi (vec_of (gi_grid gi) c)) /\
  faces_match (gi_grid gi) (gi_xyz gi) (fun c => box_xyz gi (vec_of (gi_grid gi) c)).
Proof.
  intros Hg Hb. split.
  - eapply tiles_ext; [|apply cell_box_tiles; assumption].
    intros c Hc. unfold box_xyz. rewrite mat_of_vec_of; auto.
  - eapply faces_ext; [|apply cell_box_faces; assumption].
    intros c Hc. unfold box_xyz. rewrite mat_of_vec_of; auto.
Qed.
Lemma box_uvw_tiles gi : grid_ok (gi_grid gi) -> box_ok (gi_uvw gi) -> gi_bspline gi = true ->
  tiles (gi_grid gi) (gi_uvw gi) (fun c => box_uvw gi (vec_of (gi_grid gi) c)) /\
  faces_match (gi_grid gi) (gi_uvw gi) (fun c => box_uvw gi (vec_of (gi_grid gi) c)).
Proof.
  intros Hg Hb Hs. split.
  - eapply tiles_ext; [|apply cell_box_tiles; assumption].
    intros c Hc. unfold box_uvw. rewrite Hs, mat_of_vec_of; auto.
  - eapply faces_ext; [|apply cell_box_faces; assumption].
    intros c Hc. unfold box_uvw. rewrite Hs, mat_of_vec_of; auto.
Qed.
