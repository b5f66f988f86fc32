(** Properties C01, C02, C03, C04, C05 of the background grid indexing. *)
From Coq Require Import Arith List Reals Lia Lra.
From Verif Require Import Geo GridModel GridSpec GridProofs GridGeoModel GridGeoSpec GridGeoProofs.
Import ListNotations.

(** C01: cell number -> position -> cell number and position -> number -> position are identities between the
    numbers 0..n0*n1*n2-1 and the positions of the grid. *)
Theorem C01_number_of_position : forall g c, in_grid g c ->
  vec_of g c < num_elements g /\ mat_of g (vec_of g c) = c.
Proof. exact (fun g c H => conj (vec_of_bound g c H) (mat_of_vec_of g c H)). Qed.
Print Assumptions C01_number_of_position.

Theorem C01_position_of_number : forall g i, grid_ok g -> i < num_elements g ->
  in_grid g (mat_of g i) /\ vec_of g (mat_of g i) = i.
Proof. exact (fun g i H H' => conj (mat_of_in_grid g i H H') (vec_of_mat_of g i H)). Qed.
Print Assumptions C01_position_of_number.

Theorem C01_no_shared_number : forall g c c', in_grid g c -> in_grid g c' -> vec_of g c = vec_of g c' -> c = c'.
Proof. exact vec_of_inj. Qed.
Print Assumptions C01_no_shared_number.

Example C01_ex : grid_ok (Grid 3 4 5) /\ in_grid (Grid 3 4 5) (C3 2 1 4) /\ vec_of (Grid 3 4 5) (C3 2 1 4) = 53
  /\ 53 < num_elements (Grid 3 4 5).
Proof. unfold grid_ok, in_grid, num_elements; simpl; repeat split; lia. Qed.

(** C02: the boxes of the cells tile the grid box (global space; parametric space for B-spline grids). *)
Theorem C02_cell_boxes_tile_global : forall gi, grid_ok (gi_grid gi) -> box_ok (gi_xyz gi) ->
  tiles (gi_grid gi) (gi_xyz gi) (fun c => box_xyz gi (vec_of (gi_grid gi) c)) /\
  faces_match (gi_grid gi) (gi_xyz gi) (fun c => box_xyz gi (vec_of (gi_grid gi) c)).
Proof. exact box_xyz_tiles. Qed.
Print Assumptions C02_cell_boxes_tile_global.

Theorem C02_cell_boxes_tile_parametric : forall gi, grid_ok (gi_grid gi) -> box_ok (gi_uvw gi) -> gi_bspline gi = true ->
  tiles (gi_grid gi) (gi_uvw gi) (fun c => box_uvw gi (vec_of (gi_grid gi) c)) /\
  faces_match (gi_grid gi) (gi_uvw gi) (fun c => box_uvw gi (vec_of (gi_grid gi) c)).
Proof. exact box_uvw_tiles. Qed.
Print Assumptions C02_cell_boxes_tile_parametric.

(** every cell has the same share of the volume *)
Theorem C02_cell_volume : forall g b c, grid_ok g -> box_ok b ->
  (box_volume (cell_box g b c) * INR (num_elements g) = box_volume b)%R.
Proof. exact cell_volume. Qed.
Print Assumptions C02_cell_volume.

Example C02_ex : let gi := Indexer (Grid 3 4 5) (Box (Pt (-1) 0 2) (Pt 1 1 3)) (Box (Pt 0 0 0) (Pt 1 1 1)) true in
  grid_ok (gi_grid gi) /\ box_ok (gi_xyz gi) /\ box_ok (gi_uvw gi) /\ gi_bspline gi = true.
Proof.
  simpl; split; [unfold grid_ok; simpl; lia|]. split; [|split; [|reflexivity]];
  intros [| |]; simpl; lra.
Qed.

(** C03: stepping in any direction from the first cell of a sub-box visits exactly the cells of the sub-box, once;
    the walk stops at the first 'global end' (definition of [walk]), i.e. 'global end' is reported exactly on the
    last visited cell. *)
Theorem C03_stepping_visits_each_cell_once : forall g d p, part_ok g p ->
  exists l, walk g d p (box_size p) (vec_of g (first_cell d p)) = Some l /\
            NoDup l /\
            (forall c, in_grid g c -> (In (vec_of g c) l <-> in_box p c)) /\
            (forall i, In i l -> exists c, in_box p c /\ i = vec_of g c).
Proof. exact traversal. Qed.
Print Assumptions C03_stepping_visits_each_cell_once.

Theorem C03_middle_iff_face_neighbour : forall g d p c j, part_ok g p -> in_box p c ->
  (next_index g (vec_of g c) d p = (j, Middle) <-> exists c', face_nb d c c' /\ in_box p c' /\ j = vec_of g c').
Proof. exact step_middle_iff. Qed.
Print Assumptions C03_middle_iff_face_neighbour.

Theorem C03_step_stays_in_box : forall g d p c j f, part_ok g p -> in_box p c ->
  next_index g (vec_of g c) d p = (j, f) -> exists c', in_box p c' /\ j = vec_of g c'.
Proof. exact step_result_in_box. Qed.
Print Assumptions C03_step_stays_in_box.

Example C03_ex : part_ok (Grid 3 4 5) (Part (C3 1 1 0) (C3 2 3 1)) /\ in_box (Part (C3 1 1 0) (C3 2 3 1)) (C3 1 2 0) /\
  walk (Grid 3 4 5) YB (Part (C3 1 1 0) (C3 2 3 1)) 12 (vec_of (Grid 3 4 5) (C3 2 3 1)) =
    Some [23; 20; 17; 22; 19; 16; 11; 8; 5; 10; 7; 4].
Proof. split; [|split]; [unfold part_ok, in_grid; simpl; lia | unfold in_box; simpl; lia | reflexivity]. Qed.

(** C04 *)
Theorem C04_reverse_step_undoes_step : forall g d p c j f, part_ok g p -> in_box p c ->
  next_index g (vec_of g c) d p = (j, f) -> f <> GlobalEnd ->
  next_index g j (reverse_dir d) p = (vec_of g c, f).
Proof. exact step_reverse. Qed.
Print Assumptions C04_reverse_step_undoes_step.

Example C04_ex : next_index (Grid 3 4 5) (vec_of (Grid 3 4 5) (C3 2 3 0)) XF (Part (C3 1 1 0) (C3 2 3 1)) =
  (vec_of (Grid 3 4 5) (C3 1 1 1), LocalEnd).
Proof. reflexivity. Qed.

(** C05 *)
Theorem C05_is_end_iff_no_face_neighbour : forall g d p c, part_ok g p -> in_box p c ->
  (is_end g (vec_of g c) d p = true <-> snd (next_index g (vec_of g c) d p) <> Middle).
Proof. exact is_end_spec. Qed.
Print Assumptions C05_is_end_iff_no_face_neighbour.

Theorem C05_is_end_iff_no_neighbour_cell : forall g d p c, part_ok g p -> in_box p c ->
  (is_end g (vec_of g c) d p = true <-> forall c', face_nb d c c' -> ~ in_box p c').
Proof. exact is_end_no_nb. Qed.
Print Assumptions C05_is_end_iff_no_neighbour_cell.

Example C05_ex : is_end (Grid 3 4 5) (vec_of (Grid 3 4 5) (C3 1 3 0)) YF (Part (C3 1 1 0) (C3 2 3 1)) = true /\
  is_end (Grid 3 4 5) (vec_of (Grid 3 4 5) (C3 1 3 0)) XF (Part (C3 1 1 0) (C3 2 3 1)) = false.
Proof. split; reflexivity. Qed.
