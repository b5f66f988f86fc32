(** Properties C15 and C16: the boxes of the generalized Gauss quadrature. *)
From Coq Require Import Arith List Bool QArith Lia Permutation.
From Verif Require Import GridModel GridSpec GridProofs FloodModel FloodSets BoxModel BoxSpec BoxProofs.
Import ListNotations.
Local Open Scope nat_scope.

(** ** C15 *)
Lemma boxes_partition g U : grid_ok g -> exists boxes, assemble_boxes g U = Some boxes /\
  Permutation (concat (map fst boxes)) (List.filter U (seq 0 (num_elements g))).
Proof.
  intros Hg. unfold assemble_boxes. destruct (compute_coefficients_ok g U Hg) as (c & -> & _).
  destruct (boxes_ok g U Hg c (queue_order g U c) (fun _ _ => True)) as (boxes & E & P & _); auto.
  - apply queue_order_perm.
  - exists boxes. auto.
Qed.
Theorem C15_boxes_partition_untrimmed : forall g U, grid_ok g -> exists boxes, assemble_boxes g U = Some boxes /\
  Permutation (concat (map fst boxes)) (List.filter U (seq 0 (num_elements g))).
Proof. exact boxes_partition. Qed.
Print Assumptions C15_boxes_partition_untrimmed.

Lemma boxes_partition_any g U coef order : grid_ok g -> Permutation order (List.filter U (seq 0 (num_elements g))) ->
  exists boxes, box_loop g U coef order (fun _ => false) = Some boxes /\
  Permutation (concat (map fst boxes)) (List.filter U (seq 0 (num_elements g))).
Proof.
  intros Hg HP. destruct (boxes_ok g U Hg coef order (fun _ _ => True)) as (boxes & E & P & _); auto.
  exists boxes. auto.
Qed.
(** whatever the coefficients and whatever order the queue delivers *)
Theorem C15_any_priority : forall g U coef order, grid_ok g -> Permutation order (List.filter U (seq 0 (num_elements g))) ->
  exists boxes, box_loop g U coef order (fun _ => false) = Some boxes /\
  Permutation (concat (map fst boxes)) (List.filter U (seq 0 (num_elements g))).
Proof. exact boxes_partition_any. Qed.
Print Assumptions C15_any_priority.

(** the coefficient computation never reports an error and yields positive values *)
Theorem C15_coefficients_positive : forall g U, grid_ok g ->
  exists c, compute_coefficients g U = Some c /\ (forall e, (0 < c e)%Q).
Proof. exact compute_coefficients_ok. Qed.
Print Assumptions C15_coefficients_positive.

Example C15_example :
  let U i := existsb (Nat.eqb i) [6; 7; 8; 11; 12; 17] in
  grid_ok (Grid 5 5 1) /\
  assemble_boxes (Grid 5 5 1) U = Some [([7; 12; 17], C3 1 3 1); ([8], C3 1 1 1); ([6; 11], C3 1 2 1)].
Proof. cbv zeta. split; [repeat constructor|vm_compute; reflexivity]. Qed.

(** ** C16 *)
Lemma boxes_cuboids g U : grid_ok g -> no_wrap g U ->
  exists boxes, assemble_boxes g U = Some boxes /\ forall l s, In (l, s) boxes -> is_cuboid g l s.
Proof.
  intros Hg Hw. unfold assemble_boxes. destruct (compute_coefficients_ok g U Hg) as (c & -> & _).
  destruct (boxes_ok g U Hg c (queue_order g U c) (is_cuboid g)) as (boxes & E & _ & P).
  - intros b b1 HI Hq E. eapply cuboid_expand; eauto.
  - intros e He Hu. eapply cuboid_single; eauto.
  - apply queue_order_perm.
  - exists boxes. auto.
Qed.
Theorem C16_boxes_are_cuboids_without_wrap : forall g U, grid_ok g -> no_wrap g U ->
  exists boxes, assemble_boxes g U = Some boxes /\ forall l s, In (l, s) boxes -> is_cuboid g l s.
Proof. exact boxes_cuboids. Qed.
Print Assumptions C16_boxes_are_cuboids_without_wrap.

Lemma boxes_cuboids_interior g U : grid_ok g -> interior g U ->
  exists boxes, assemble_boxes g U = Some boxes /\ forall l s, In (l, s) boxes -> is_cuboid g l s.
Proof. intros Hg Hi. apply boxes_cuboids; [assumption|]. apply interior_no_wrap; assumption. Qed.
Theorem C16_boxes_are_cuboids_interior : forall g U, grid_ok g -> interior g U ->
  exists boxes, assemble_boxes g U = Some boxes /\ forall l s, In (l, s) boxes -> is_cuboid g l s.
Proof. exact boxes_cuboids_interior. Qed.
Print Assumptions C16_boxes_are_cuboids_interior.


Lemma all_cells g (P : c3 -> bool) : forallb P (cells_in (C3 0 0 0) (C3 (nx g) (ny g) (nz g))) = true ->
  forall c, in_grid g c -> P c = true.
Proof.
  intros H c Hc. rewrite forallb_forall in H. apply H, in_cells_in. unfold in_grid in Hc. unfold within; simpl. lia.
Qed.
Example C16_example :
  let U i := existsb (Nat.eqb i) [16; 17; 20; 21; 33] in
  let U3 i := existsb (Nat.eqb i) [21; 22; 25; 37; 38] in
  grid_ok (Grid 4 4 3) /\ no_wrap (Grid 4 4 3) U /\ grid_ok (Grid 4 4 4) /\ interior (Grid 4 4 4) U3 /\
  assemble_boxes (Grid 4 4 4) U3 = Some [([25; 21], C3 1 2 1); ([37; 38], C3 2 1 1); ([22], C3 1 1 1)].
Proof.
  intros U U3. split; [repeat constructor|]. split.
  { intros c c' d Hc Hu _ E _.
    assert (X : forall c, in_grid (Grid 4 4 3) c -> (fun c => negb (U (vec_of (Grid 4 4 3) c)) ||
       forallb (fun d => match next_index_g (Grid 4 4 3) (vec_of (Grid 4 4 3) c) d with (j, LocalEnd) => negb (U j) | _ => true end)
         [XF; XB; YF; YB; ZF; ZB]) c = true).
    { apply all_cells. vm_compute. reflexivity. }
    specialize (X c Hc). cbv beta in X. rewrite Hu in X. cbn [negb orb] in X. rewrite forallb_forall in X.
    specialize (X d). rewrite E in X. apply negb_true_iff. apply X. destruct d; simpl; tauto. }
  split; [repeat constructor|]. split; [|vm_compute; reflexivity].
  intros c Hc Hu.
  assert (X : forall c, in_grid (Grid 4 4 4) c -> (fun c => negb (U3 (vec_of (Grid 4 4 4) c)) ||
       ((0 <? cx c) && (cx c + 1 <? 4) && (0 <? cy c) && (cy c + 1 <? 4) && (0 <? cz c) && (cz c + 1 <? 4))) c = true).
  { apply all_cells. vm_compute. reflexivity. }
  specialize (X c Hc). cbv beta in X. rewrite Hu in X. cbn [negb orb] in X. rewrite !andb_true_iff, !Nat.ltb_lt in X. simpl. lia.
Qed.

(** Without the guard a box can swallow the wrapped-around cell of the next row: a 3x3x1 grid in which only one corner
    cell is not untrimmed yields a "3x2" box of the cells (2,1),(0,2),(1,2),(2,0),(0,1),(1,1). *)
Lemma boxes_refuted : exists g U boxes l s, grid_ok g /\ assemble_boxes g U = Some boxes /\ In (l, s) boxes /\ ~ is_cuboid g l s.
Proof.
  exists (Grid 3 3 1), (fun i => i <? 8).
  exists [([5; 6; 7; 2; 3; 4], C3 3 2 1); ([1; 0], C3 2 1 1)], [5; 6; 7; 2; 3; 4], (C3 3 2 1).
  split; [repeat constructor|]. split; [vm_compute; reflexivity|]. split; [left; reflexivity|].
  intros (_ & _ & _ & _ & _ & lo & L1 & L2 & L3 & H). simpl in L1, L2, L3.
  pose proof (proj1 (H (C3 2 0 0) ltac:(unfold in_grid; simpl; lia)) ltac:(vm_compute; tauto)) as A.
  pose proof (proj1 (H (C3 0 2 0) ltac:(unfold in_grid; simpl; lia)) ltac:(vm_compute; tauto)) as B.
  unfold within in A, B. simpl in A, B. lia.
Qed.
Theorem C16_unguarded_refuted : exists g U boxes l s,
  grid_ok g /\ assemble_boxes g U = Some boxes /\ In (l, s) boxes /\ ~ is_cuboid g l s.
Proof. exact boxes_refuted. Qed.
Print Assumptions C16_unguarded_refuted.
