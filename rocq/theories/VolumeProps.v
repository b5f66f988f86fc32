(** C67: what ComputeVolume creates, whatever the schedule of its parallel loops, and the volume that it reports. *)
From Coq Require Import Reals QArith Qreals List Arith NArith ZArith Bool Lra Lia Permutation.
From Verif Require Import Geo GridModel GridSpec GridProofs GridGeoModel GridGeoProofs BoxModel BoxSpec BoxProofs BoxProps GgqModel GgqProofs GgqProps Ggq1dModel Ggq1dSpec Ggq1dProps GaussModel GaussProofs GaussProps
  MappingModel MappingProps PolyModel PolyProps TrimmedQuadModel TrimmedQuadProofs TrimmedQuadAssemble TrimmedQuadLemmas TrimmedQuadWitness NnlsModel NnlsProps MeshModel MeshProofs MeshGeoModel MeshGeoProofs MeshBoxProofs MeshSumProofs
  TriIpModel TriIpProps SearchModel GeoQueryModel GeoQueryProps DomainModel DomainProps ContourModel ContourWitness TrimSearchModel TrimSearchSpec TrimSearchGeo TrimSearchProps GridStoreModel GridStoreSpec GridStoreProofs
  DivSpec DivProofs DivMoment DivBox DivProps VolumeModel VolumeSpec VolumeProofs VolumeWitness VolumeExample.
Import ListNotations.
Local Open Scope R_scope.

(** The grid holds one full element for each cell inside and at most one trimmed element for each cell that is cut, under the number of
    the cell; the counts of the model info are the counts of these elements. *)
Theorem C67_elements : forall oc se gi cls junk src chunks order inf s, let n := num_elements (gi_grid gi) in
  (N.of_nat (length (active_indices cls n)) < 2 ^ 31)%N -> Permutation order (iterations gi cls) ->
  compute_volume oc se gi cls junk src chunks order = Ok (inf, s) ->
  (exists tris g pts, visit src = Some tris /\ make_query junk tris true = Some g /\ full_points se gi cls pts /\ forall i, get_element FAll s (i + 1) =
    if (i <? n)%nat then match cls i with
      | Inside => GridStoreModel.Found false (full_elem gi pts i)
      | Outside => NotFound
      | Trimmed => match value (trimmed_element oc se gi src g i) with Some c => GridStoreModel.Found true (Elem (i + 1) c) | None => NotFound end
      end else NotFound) /\
  in_full inf = length (cells_of Inside cls n) /\ (in_trimmed inf <= length (cells_of Trimmed cls n))%nat /\ in_active inf = (in_full inf + in_trimmed inf)%nat /\
  (in_active inf + in_inactive inf)%nat = n /\ in_trimmed inf = length (st_trimmed s) /\
  in_points inf = length (flat_map (fun e => co_points (e_data e)) (st_untrimmed s ++ st_trimmed s)) /\ Some (in_volume inf) = mesh_volume_omp chunks src /\
  (forall q, estimate_quality src = Some q -> in_closed inf = true <-> q < / 10 ^ 10).
Proof. intros oc se gi cls junk src chunks order inf s n A P H. split; [exact (lookup_elements _ _ _ _ _ _ _ _ _ _ A P H)|exact (counts _ _ _ _ _ _ _ _ _ _ A P H)]. Qed.
Print Assumptions C67_elements.

(** Neither the order of the iterations nor the partial sums of the threads change the model info or the elements. *)
Theorem C67_schedule : forall oc se gi cls junk src chunks chunks' order order' inf s, well_formed src -> (N.of_nat (num_triangles src) < 2 ^ 31)%N ->
  Permutation (concat chunks) (omp_indices src) -> Permutation (concat chunks') (omp_indices src) ->
  (N.of_nat (length (active_indices cls (num_elements (gi_grid gi)))) < 2 ^ 31)%N -> Permutation order (iterations gi cls) -> Permutation order' (iterations gi cls) ->
  compute_volume oc se gi cls junk src chunks order = Ok (inf, s) ->
  exists s', compute_volume oc se gi cls junk src chunks' order' = Ok (inf, s') /\ same_up_to_order s s'.
Proof. exact schedule. Qed.
Print Assumptions C67_schedule.

(** The volume that is reported is the volume of the cells inside and of the surfaces of the trimmed elements, up to the stated error. *)
Theorem C67_volume : forall oc se gi cls junk src chunks order inf s, let n := num_elements (gi_grid gi) in
  grid_ok (gi_grid gi) -> box_ok (gi_xyz gi) -> box_ok (gi_uvw gi) -> permutes (or_sort oc) -> orders_ok (se_order se) -> mind < se_residual se -> se_alpha se = None -> ggq_guard se gi cls ->
  (N.of_nat (length (active_indices cls n)) < 2 ^ 31)%N -> Permutation order (iterations gi cls) ->
  compute_volume oc se gi cls junk src chunks order = Ok (inf, s) -> (forall e, In e (st_trimmed s) -> solvable oc (se_order se) (e_data e)) ->
  let V := sum (fun i => box_volume (box_xyz gi i)) (cells_of Inside cls n) in
  Rabs (in_represented inf - (V + sum (fun e => signed_volume (element_surface (e_data e))) (st_trimmed s))) <= 4 * rtol * V + sum (fun e => trimmed_error (se_order se) (e_data e)) (st_trimmed s).
Proof. exact volume_bound. Qed.
Print Assumptions C67_volume.

(** If the surface of an element is closed, its volume is the integral of 1 over the enclosed region, wherever the apex of the cones. *)
Theorem C67_region : forall l, closed l -> forall o w, enclosed o l (fun _ => 1) w <-> w = signed_volume l.
Proof.
  intros l C o w. destruct (C66_region l (fun _ => 1) C (poly_const 1)) as (v & H). assert (E : signed_volume l = v) by (apply (H (Pt 0 0 0)), enclosed_volume).
  rewrite E. split; [apply (H o)|]. intros ->. apply (H o).
Qed.
Print Assumptions C67_region.

(** All weights are positive, and the points of a full element lie inside its own cell. *)
Theorem C67_points : forall oc se gi cls junk src chunks order inf s, let n := num_elements (gi_grid gi) in
  grid_ok (gi_grid gi) -> box_ok (gi_xyz gi) -> box_ok (gi_uvw gi) -> permutes (or_sort oc) -> ggq_guard se gi cls -> (forall a, delta (gi_grid gi) (gi_uvw gi) a > 3 * eps3) ->
  match se_alpha se with Some al => 0 < al | None => True end ->
  (N.of_nat (length (active_indices cls n)) < 2 ^ 31)%N -> Permutation order (iterations gi cls) ->
  compute_volume oc se gi cls junk src chunks order = Ok (inf, s) ->
  (forall e q, In e (st_untrimmed s) -> In q (co_points (e_data e)) -> 0 < ip_weight q /\ in_open (eb_param (co_bounds (e_data e))) (ip_pos q)) /\
  (forall e q, In e (st_trimmed s) -> In q (co_points (e_data e)) -> 0 < ip_weight q).
Proof. exact points_good. Qed.
Print Assumptions C67_points.

(** The solver of the library keeps its promise whenever it does not stop at its iteration limit. *)
Theorem C67_solver : forall A b x r, A <> [] -> b <> [] -> NnlsModel.solve A b = Some (x, r, 1%nat) -> contract_at qeso_nnls A b.
Proof.
  intros A b x0 r0 HA Hb E. destruct (solved A b Hb HA) as (x & r & mode & S & (C1 & C2) & _ & R0 & _ & M).
  rewrite S in E. injection E as _ _ ->. destruct M as [(_ & M & _)|M]; [|discriminate].
  unfold contract_at, qeso_nnls. rewrite S. split; [exact C1|]. split; [exact C2|]. split; [exact R0|].
  transitivity (r ^ 2); [ring|]. rewrite M. unfold residual_sq, apply_row, product_entry. f_equal. apply map_ext. intros k. ring.
Qed.
Print Assumptions C67_solver.


(** *** Examples *)
(** The box with sides of length 1/2 in a grid with one cell, fitted by the solver of the library. *)
Example C67_trimmed_example : exists junk inf s e, compute_volume one_oracles one_settings one_grid all_cut junk small_box [omp_indices small_box] [0%nat] = Ok (inf, s) /\
  grid_ok (gi_grid one_grid) /\ box_ok (gi_xyz one_grid) /\ box_ok (gi_uvw one_grid) /\ permutes (or_sort one_oracles) /\ orders_ok (se_order one_settings) /\ mind < se_residual one_settings /\
  se_alpha one_settings = None /\ ggq_guard one_settings one_grid all_cut /\ (forall a, delta (gi_grid one_grid) (gi_uvw one_grid) a > 3 * eps3) /\
  Permutation [0%nat] (iterations one_grid all_cut) /\ well_formed small_box /\ Permutation (concat [omp_indices small_box]) (omp_indices small_box) /\
  st_trimmed s = [e] /\ solvable one_oracles (se_order one_settings) (e_data e) /\ signed_volume (element_surface (e_data e)) = 1 / 8 /\ in_volume inf = 1 / 8.
Proof.
  destruct one_volume as (junk & inf & s & e & E & _ & T & S & V & W). exists junk, inf, s, e. split; [exact E|]. split; [repeat constructor|]. split; [intros []; cbn; lra|]. split; [intros []; cbn; lra|].
  split; [intros l; apply Permutation_refl|]. split; [cbn; lia|]. split; [apply small_in|]. split; [reflexivity|]. split; [exact I|]. split.
  { intros a. assert (B : box_ok (gi_uvw one_grid)) by (intros []; cbn; lra). destruct (delta_eq (gi_grid one_grid) (gi_uvw one_grid) a B ltac:(destruct a; cbn; lia)) as [_ D]. assert (Y := eps3_small).
    destruct a; cbn [n_at gi_grid one_grid gi_uvw nx ny nz INR at_ cube lower upper px py pz] in *; lra. }
  split; [apply Permutation_refl|]. split; [apply MeshProps.box_wf|]. split; [cbn [concat]; rewrite app_nil_r; apply Permutation_refl|]. auto.
Qed.
(** Two neighbouring cells inside a grid with 64 cells and the generalized Gauss rules. *)
Example C67_full_example : exists junk inf s, compute_volume one_oracles ggq_settings ex_gi two_inside junk small_box [omp_indices small_box] [22; 21]%nat = Ok (inf, s) /\
  grid_ok (gi_grid ex_gi) /\ box_ok (gi_xyz ex_gi) /\ box_ok (gi_uvw ex_gi) /\ orders_ok (se_order ggq_settings) /\ ggq_guard ggq_settings ex_gi two_inside /\ (forall a, delta (gi_grid ex_gi) (gi_uvw ex_gi) a > 3 * eps3) /\
  Permutation [22; 21]%nat (iterations ex_gi two_inside) /\ st_trimmed s = [] /\ length (st_untrimmed s) = 2%nat.
Proof.
  destruct two_volume as (junk & inf & s & E & T & L). exists junk, inf, s. split; [exact E|]. split; [repeat constructor|]. split; [intros []; cbn; lra|]. split; [intros []; cbn; lra|]. split; [cbn; lia|]. split; [exact two_guard|].
  split; [intros a; rewrite ex_delta; assert (Y := eps3_small); lra|]. split; [apply perm_swap|]. auto.
Qed.
(** A surface that is closed. *)
Example C67_region_example : closed (map fst small_tris) /\ signed_volume (map fst small_tris) = 1 / 8.
Proof. split; [apply (manifold_closed (Pt 0 0 0) small_box); [apply box_manifold|]; apply visit_fst, box_visit | apply small_volume, Permutation_refl]. Qed.
(** A least squares problem that the solver finishes. *)
Example C67_solver_example : exists x r, NnlsModel.solve [[1]; [1]] [2] = Some (x, r, 1%nat).
Proof. change [[1]; [1]] with (repeat [1] 2). rewrite (one_row 2 2) by (try lia; lra). eexists _, _. reflexivity. Qed.
