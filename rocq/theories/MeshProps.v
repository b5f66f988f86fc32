(** Properties C36-C42 and C57 of triangle meshes. *)
From Coq Require Import Reals List Arith Lia Lra Permutation ZArith NArith Nnat.
From Verif Require Import Geo MappingModel TrimmedQuadModel MeshModel MeshProofs MeshGeoModel MeshGeoProofs MeshBoxProofs MeshSumProofs.
Import ListNotations.
Local Open Scope R_scope.

(** *** C36 *)
(** The operations of a user on a mesh. *)
Inductive mesh_op :=
| OpVertex (v : pt)
| OpTriangle (t : itri) (n : pt)
| OpRemove (tid : nat)
| OpAppend (src : mesh pt)
| OpRefine (min : nat)
| OpClear.
(** The effect of an operation; None: undefined behaviour (or a loop that does not end). *)
Definition step (m : mesh pt) (o : mesh_op) : option (mesh pt) :=
  match o with
  | OpVertex v => Some (fst (add_vertex m v))
  | OpTriangle t n => Some (add_triangle m t n)
  | OpRemove tid => remove_triangle m tid
  | OpAppend src => append m src
  | OpRefine min => match refine m min with Ok m' => Some m' | _ => None end
  | OpClear => Some (clear m)
  end.
(** What the user has to respect: indices in range, and well-formed meshes to append. *)
Definition valid (m : mesh pt) (o : mesh_op) : Prop :=
  match o with
  | OpTriangle t _ => index_ok (num_vertices m) t
  | OpRemove tid => (tid < num_triangles m)%nat
  | OpAppend src => well_formed src
  | _ => True
  end.
Fixpoint valid_run (m : mesh pt) (ops : list mesh_op) : Prop :=
  match ops with
  | [] => True
  | o :: ops => valid m o /\ forall m', step m o = Some m' -> valid_run m' ops
  end.

Lemma step_ok m o : well_formed m -> valid m o -> exists m', step m o = Some m' /\ well_formed m'.
Proof.
  intros W H. destruct o as [v|t n|tid|src|min|]; cbn [step valid] in *.
  - eexists. split; [reflexivity | apply add_vertex_wf, W].
  - eexists. split; [reflexivity | apply add_triangle_wf; assumption].
  - destruct (remove_ok m tid W H) as [m' [E [_ [W' _]]]]. eauto.
  - assert (E := append_eq m src H). rewrite E. eexists. split; [reflexivity | exact (append_wf _ _ _ W H E)].
  - destruct (refine_ok m min W) as [m' [E [W' _]]]. rewrite E. eauto.
  - eexists. split; [reflexivity | apply empty_wf].
Qed.
Lemma run_ok ops : forall m, well_formed m -> valid_run m ops -> exists m', fold_opt step ops m = Some m' /\ well_formed m' /\ check m' = true.
Proof.
  induction ops as [|o ops IH]; intros m W H; cbn [fold_opt].
  - exists m. split; [reflexivity|]. split; [exact W | apply check_iff, W].
  - destruct H as [H1 H2]. destruct (step_ok m o W H1) as [m1 [E W1]]. rewrite E. apply IH; auto.
Qed.
(** Every sequence of valid operations on an empty mesh is defined and leads to a well-formed mesh. *)
Lemma mesh_well_formed ops : valid_run empty_mesh ops -> exists m,
  fold_opt step ops empty_mesh = Some m /\ well_formed m /\ check m = true.
Proof. apply run_ok, empty_wf. Qed.
Theorem C36_well_formed : forall ops, valid_run empty_mesh ops -> exists m,
  fold_opt step ops empty_mesh = Some m /\ well_formed m /\ check m = true.
Proof. exact mesh_well_formed. Qed.
Print Assumptions C36_well_formed.
(** The check of the library accepts exactly the well-formed meshes, and in these all triangles can be visited. *)
Lemma check_exact (m : mesh pt) : (check m = true <-> well_formed m) /\
  (well_formed m -> exists l, visit_n m = Some l /\ visit m = Some (map fst l)).
Proof.
  split; [apply check_iff|]. intros W. destruct (visit_n_wf m W) as [l Vi]. exists l. split; [exact Vi | apply visit_fst, Vi].
Qed.
Theorem C36_check_exact : forall m : mesh pt, (check m = true <-> well_formed m) /\
  (well_formed m -> exists l, visit_n m = Some l /\ visit m = Some (map fst l)).
Proof. exact check_exact. Qed.
Print Assumptions C36_check_exact.

Definition unit_box : mesh pt := mesh_box (Pt 0 0 0) (Pt 1 1 1).
Lemma unit_ok : box_ok (Box (Pt 0 0 0) (Pt 1 1 1)).
Proof. intros []; cbn; lra. Qed.
Lemma box_wf lo up : well_formed (mesh_box lo up).
Proof. apply check_iff. reflexivity. Qed.
Example C36_example : valid_run empty_mesh
  [OpVertex (Pt 0 0 0); OpVertex (Pt 1 0 0); OpVertex (Pt 0 1 0); OpTriangle (0, 1, 2)%nat (Pt 0 0 1); OpAppend unit_box; OpRefine 20; OpClear].
Proof.
  repeat (split; [exact I | intros ? E; injection E as <-]). split; [cbn; lia|]. intros m' E. injection E as <-.
  split; [apply box_wf|]. intros m' E. repeat (split; [exact I|]; intros ? _). exact I.
Qed.

(** *** C37 *)
Theorem C37_removes_exactly_one : forall (m : mesh pt) tid l q, well_formed m -> visit_n m = Some l -> nth_error l tid = Some q ->
  exists m' l', remove_triangle m tid = Some m' /\ m_vertices m' = m_vertices m /\ visit_n m' = Some l' /\ Permutation l (q :: l') /\
  (forall j, (j < length l')%nat -> j <> tid -> nth_error l' j = nth_error l j).
Proof. exact remove_exact. Qed.
Print Assumptions C37_removes_exactly_one.
Example C37_example : exists m' l', remove_triangle unit_box 3 = Some m' /\ visit_n m' = Some l' /\ length l' = 11%nat /\
  nth_error l' 3 = nth_error (box_tris (Pt 0 0 0) (Pt 1 1 1)) 11.
Proof. eexists. eexists. repeat split. Qed.

(** *** C38 *)
(** Refinement is defined, keeps a mesh well formed, keeps area and volume, keeps the vertices, and only replaces
    triangles by equally oriented parts with the same normal; the number of triangles stays below four times the
    requested one, and reaches the requested one unless the triangles become smaller than the tolerance. *)
Lemma refine_keeps m min : well_formed m -> exists m',
  refine m min = Ok m' /\ well_formed m' /\ (exists e, m_vertices m' = m_vertices m ++ e) /\
  mesh_area m' = mesh_area m /\ mesh_volume m' = mesh_volume m /\ (forall d, mesh_volume_dir m' d = mesh_volume_dir m d) /\
  (exists l l', visit_n m = Some l /\ visit_n m' = Some l' /\
     forall q, In q l' -> exists q0, In q0 l /\ part_of (fst q) (fst q0) /\ snd q = snd q0) /\
  (num_triangles m <= num_triangles m' <= Nat.max (num_triangles m) (4 * (min - 1)))%nat /\
  (forall a, mesh_area m = Some a -> INR min * zerotol <= a -> (min <= num_triangles m')%nat).
Proof.
  intros W. destruct (refine_ok m min W) as [m' (A & B & C & D & E & F & G & H & I)]. exists m'.
  do 8 (split; [assumption|]). intros a Ha L. destruct min as [|min]; [lia|]. apply (I a Ha L).
  assert (Z := zerotol_pos). rewrite S_INR in L. assert (P := pos_INR min). nra.
Qed.
Theorem C38_refinement : forall m min, well_formed m -> exists m',
  refine m min = Ok m' /\ well_formed m' /\ (exists e, m_vertices m' = m_vertices m ++ e) /\
  mesh_area m' = mesh_area m /\ mesh_volume m' = mesh_volume m /\ (forall d, mesh_volume_dir m' d = mesh_volume_dir m d) /\
  (exists l l', visit_n m = Some l /\ visit_n m' = Some l' /\
     forall q, In q l' -> exists q0, In q0 l /\ part_of (fst q) (fst q0) /\ snd q = snd q0) /\
  (num_triangles m <= num_triangles m' <= Nat.max (num_triangles m) (4 * (min - 1)))%nat /\
  (forall a, mesh_area m = Some a -> INR min * zerotol <= a -> (min <= num_triangles m')%nat).
Proof. exact refine_keeps. Qed.
Print Assumptions C38_refinement.
(** A mesh that is not degenerate, but whose largest triangle has an area of at most 1e-14, is not refined at all. *)
Definition small_mesh : mesh pt := Mesh [Pt 0 0 0; Pt (/ 10 ^ 7) 0 0; Pt 0 (/ 10 ^ 7) 0] [(0, 1, 2)%nat] [Pt 0 0 1].
Lemma small_area : tri_area (Tri (Pt 0 0 0) (Pt (/ 10 ^ 7) 0 0) (Pt 0 (/ 10 ^ 7) 0)) = 1/2 * zerotol.
Proof.
  unfold tri_area, cross, vsub. cbn [P1 P2 P3 px py pz].
  match goal with |- context [norm (Pt ?x ?y ?z)] => replace (Pt x y z) with (Pt 0 0 zerotol) by (f_equal; unfold zerotol; field) end.
  rewrite norm_z, Rabs_pos_eq; [reflexivity|]. apply Rlt_le, zerotol_pos.
Qed.
Lemma refine_small : exists m, well_formed m /\ (exists a, mesh_area m = Some a /\ 0 < a) /\ refine m 2 = Ok m /\ num_triangles m = 1%nat.
Proof.
  assert (Z := zerotol_pos). exists small_mesh. split; [apply check_iff; reflexivity|]. split; [|split; [|reflexivity]].
  - unfold mesh_area, visit, visit_list, num_triangles, triangle. cbn [small_mesh m_triangles m_vertices length seq nth_error corners option_map fold_left].
    eexists. split; [reflexivity|]. rewrite small_area. lra.
  - unfold refine. cbn [refine_loop num_triangles small_mesh m_triangles length Nat.ltb Nat.leb].
    unfold refine_pass. change (visit small_mesh) with (Some [Tri (Pt 0 0 0) (Pt (/ 10 ^ 7) 0 0) (Pt 0 (/ 10 ^ 7) 0)]). cbv iota beta zeta.
    unfold max_area. cbn [fold_left]. rewrite small_area, Rmax_right by lra.
    destruct (Rle_dec (1/2 * zerotol) zerotol); [reflexivity | lra].
Qed.
Theorem C38_count_refuted : exists m, well_formed m /\ (exists a, mesh_area m = Some a /\ 0 < a) /\ refine m 2 = Ok m /\ num_triangles m = 1%nat.
Proof. exact refine_small. Qed.
Print Assumptions C38_count_refuted.
Example C38_example : exists m', refine unit_box 1000 = Ok m' /\ (1000 <= num_triangles m' <= 3996)%nat /\ mesh_area m' = Some 6 /\ mesh_volume m' = Some 1.
Proof.
  destruct (refine_keeps unit_box 1000 (box_wf _ _)) as [m' (A & B & C & D & E & F & G & H & I)]. exists m'. split; [exact A|].
  destruct (box_area_volume _ _ unit_ok) as [Ar [Vo _]]. cbn [px py pz] in Ar, Vo.
  assert (Ar' : mesh_area unit_box = Some 6) by (unfold unit_box; rewrite Ar; f_equal; lra).
  assert (Vo' : mesh_volume unit_box = Some 1) by (unfold unit_box; rewrite Vo; f_equal; lra).
  split; [|split; congruence]. split; [apply (I 6 Ar')|].
  - assert (Z : zerotol <= / 1000).
    { unfold zerotol. apply Rinv_le_contravar; [lra|]. replace 1000 with (10 ^ 3) by ring. apply Rle_pow; [lra | lia]. }
    replace (INR 1000) with 1000 by (rewrite INR_IZR_INZ; reflexivity). lra.
  - change (num_triangles unit_box) with 12%nat in H. lia.
Qed.

(** *** C39 *)
Lemma append_adds m src l1 l2 : well_formed m -> well_formed src -> visit_n m = Some l1 -> visit_n src = Some l2 -> exists m',
  append m src = Some m' /\ well_formed m' /\ visit_n m' = Some (l1 ++ l2) /\
  (forall a b, mesh_area m = Some a -> mesh_area src = Some b -> mesh_area m' = Some (a + b)) /\
  (forall a b, mesh_volume m = Some a -> mesh_volume src = Some b -> 0 <= sum tri_flux l1 -> 0 <= sum tri_flux l2 -> mesh_volume m' = Some (a + b)).
Proof.
  intros W1 W2 V1 V2. destruct (append_visit m src l1 l2 W1 W2 V1 V2) as [m' [E [W' V']]]. exists m'.
  split; [exact E|]. split; [exact W'|]. split; [exact V'|]. split.
  - intros a b A B. rewrite (area_visit _ _ V1) in A. rewrite (area_visit _ _ V2) in B. rewrite (area_visit _ _ V'), sum_app. congruence.
  - intros a b A B P Q. rewrite (volume_visit _ _ V1) in A. rewrite (volume_visit _ _ V2) in B. rewrite (volume_visit _ _ V'), sum_app.
    injection A as <-. injection B as <-. rewrite !Rabs_pos_eq by lra. f_equal. field.
Qed.
Theorem C39_append_adds : forall m src l1 l2, well_formed m -> well_formed src -> visit_n m = Some l1 -> visit_n src = Some l2 -> exists m',
  append m src = Some m' /\ well_formed m' /\ visit_n m' = Some (l1 ++ l2) /\
  (forall a b, mesh_area m = Some a -> mesh_area src = Some b -> mesh_area m' = Some (a + b)) /\
  (forall a b, mesh_volume m = Some a -> mesh_volume src = Some b -> 0 <= sum tri_flux l1 -> 0 <= sum tri_flux l2 -> mesh_volume m' = Some (a + b)).
Proof. exact append_adds. Qed.
Print Assumptions C39_append_adds.
(** Volumes of meshes with opposite orientation cancel. *)
Definition inverted (m : mesh pt) : mesh pt := Mesh (m_vertices m) (m_triangles m) (map (vscale (-1)) (m_normals m)).
Lemma inverted_visit m l : visit_n m = Some l -> visit_n (inverted m) = Some (map (fun q => (fst q, vscale (-1) (snd q))) l).
Proof.
  unfold visit_n, num_triangles. cbn [inverted m_triangles]. rewrite !visit_seq. intros [L F]. split; [rewrite map_length; exact L|].
  intros i I. rewrite nth_error_map, F by exact I. unfold triangle_n, triangle. cbn [inverted m_vertices m_triangles m_normals].
  destruct (nth_error (m_triangles m) i) as [t|]; [|reflexivity]. rewrite nth_error_map.
  destruct (corners (m_vertices m) t); [|reflexivity]. destruct (nth_error (m_normals m) i); reflexivity.
Qed.
Lemma volumes_cancel : exists m src m', well_formed m /\ well_formed src /\ append m src = Some m' /\
  mesh_volume m = Some 1 /\ mesh_volume src = Some 1 /\ mesh_volume m' = Some 0.
Proof.
  assert (Vi := box_visit (Pt 0 0 0) (Pt 1 1 1)). fold unit_box in Vi. assert (Vj := inverted_visit _ _ Vi).
  assert (W : well_formed unit_box) by apply box_wf. assert (W2 : well_formed (inverted unit_box)) by (apply check_iff; reflexivity).
  destruct (append_visit _ _ _ _ W W2 Vi Vj) as [m' [E [W' V']]]. exists unit_box, (inverted unit_box), m'.
  split; [exact W|]. split; [exact W2|]. split; [exact E|].
  assert (S : forall l, sum tri_flux (map (fun q => (fst q, vscale (-1) (snd q))) l) = - sum tri_flux l).
  { intros l. rewrite sum_map. rewrite (sum_ext _ (fun q => (-1) * tri_flux q)); [rewrite sum_scal; ring|].
    intros [t n] _. unfold tri_flux, dot, vscale. cbn [fst snd px py pz]. ring. }
  assert (V1 : mesh_volume unit_box = Some 1).
  { destruct (box_area_volume _ _ unit_ok) as [_ [Vo _]]. cbn [px py pz] in Vo. unfold unit_box. rewrite Vo. f_equal. lra. }
  split; [exact V1|]. split.
  - rewrite (volume_visit _ _ Vj), S. rewrite (volume_visit _ _ Vi) in V1. rewrite <- V1. f_equal.
    replace (- sum tri_flux (box_tris (Pt 0 0 0) (Pt 1 1 1)) / 3) with (- (sum tri_flux (box_tris (Pt 0 0 0) (Pt 1 1 1)) / 3)) by field.
    apply Rabs_Ropp.
  - rewrite (volume_visit _ _ V'), sum_app, S. f_equal.
    match goal with |- Rabs ?x = _ => replace x with 0 by field end. apply Rabs_R0.
Qed.
Theorem C39_orientation_refuted : exists m src m', well_formed m /\ well_formed src /\ append m src = Some m' /\
  mesh_volume m = Some 1 /\ mesh_volume src = Some 1 /\ mesh_volume m' = Some 0.
Proof. exact volumes_cancel. Qed.
Print Assumptions C39_orientation_refuted.

(** *** C40 *)
(** The mesh of a box: 12 triangles, every edge in exactly two triangles with opposite directions, outward unit
    normals that agree with the orientation of the triangles, and the area and the volume of the box. *)
Lemma box_mesh_ok lo up : box_ok (Box lo up) ->
  let dx := px up - px lo in let dy := py up - py lo in let dz := pz up - pz lo in
  well_formed (mesh_box lo up) /\ two_manifold (mesh_box lo up) /\
  (exists l, visit_n (mesh_box lo up) = Some l /\ length l = 12%nat /\
    forall q, In q l -> norm (snd q) = 1 /\ exact_normal q /\ 0 < tri_area (fst q) /\
      (forall p, corner (fst q) p -> in_closed (Box lo up) p) /\
      (forall p, in_closed (Box lo up) p -> dot (snd q) (vsub p (P1 (fst q))) <= 0)) /\
  mesh_area (mesh_box lo up) = Some (2 * (dx * dy + dy * dz + dx * dz)) /\
  mesh_volume (mesh_box lo up) = Some (dx * dy * dz) /\ (forall d, mesh_volume_dir (mesh_box lo up) d = Some (dx * dy * dz)).
Proof.
  intros B dx dy dz. split; [apply box_wf|]. split; [apply box_manifold|]. split; [|apply box_area_volume, B].
  exists (box_tris lo up). split; [apply box_visit|]. split; [reflexivity|]. intros q I.
  destruct (box_exact lo up q B I) as [E [U P]]. split; [exact U|]. split; [exact E|].
  split; [unfold tri_area; fold (area2 (fst q)); lra|].
  split; [|intros p H; apply (box_outward lo up q p B I H)].
  assert (X := B AX). assert (Y := B AY). assert (Z := B AZ). cbn [at_ lower upper] in X, Y, Z.
  intros p C d. unfold box_tris in I. repeat destruct I as [<- | I]; [..|destruct I]; destruct C as [-> | [-> | ->]];
    destruct d; cbn [fst P1 P2 P3 at_ lower upper px py pz]; lra.
Qed.
Theorem C40_box_mesh : forall lo up, box_ok (Box lo up) ->
  let dx := px up - px lo in let dy := py up - py lo in let dz := pz up - pz lo in
  well_formed (mesh_box lo up) /\ two_manifold (mesh_box lo up) /\
  (exists l, visit_n (mesh_box lo up) = Some l /\ length l = 12%nat /\
    forall q, In q l -> norm (snd q) = 1 /\ exact_normal q /\ 0 < tri_area (fst q) /\
      (forall p, corner (fst q) p -> in_closed (Box lo up) p) /\
      (forall p, in_closed (Box lo up) p -> dot (snd q) (vsub p (P1 (fst q))) <= 0)) /\
  mesh_area (mesh_box lo up) = Some (2 * (dx * dy + dy * dz + dx * dz)) /\
  mesh_volume (mesh_box lo up) = Some (dx * dy * dz) /\ (forall d, mesh_volume_dir (mesh_box lo up) d = Some (dx * dy * dz)).
Proof. exact box_mesh_ok. Qed.
Print Assumptions C40_box_mesh.
Example C40_example : box_ok (Box (Pt (-1) 0 2) (Pt 1 (1/2) 7)) /\ mesh_volume (mesh_box (Pt (-1) 0 2) (Pt 1 (1/2) 7)) = Some 5.
Proof.
  assert (B : box_ok (Box (Pt (-1) 0 2) (Pt 1 (1/2) 7))) by (intros []; cbn; lra). split; [exact B|].
  destruct (box_area_volume _ _ B) as [_ [V _]]. cbn [px py pz] in V. rewrite V. f_equal. field.
Qed.

(** *** C41 *)
Theorem C41_bounding_box : forall maxd lowestd m l, visit m = Some l -> l <> [] ->
  (forall t p d, In t l -> corner t p -> lowestd <= at_ d p <= maxd) ->
  exists b, mesh_bounding_box maxd lowestd m = Some b /\
    (forall t p, In t l -> corner t p -> in_closed b p) /\
    (forall d, (exists t p, In t l /\ corner t p /\ at_ d p = at_ d (lower b)) /\
               (exists t p, In t l /\ corner t p /\ at_ d p = at_ d (upper b))).
Proof. exact bounding_box_ok. Qed.
Print Assumptions C41_bounding_box.
(** Without triangles the box is inverted: the extreme values of the number type. *)
Theorem C41_empty_mesh : forall maxd lowestd m, m_triangles m = [] ->
  mesh_bounding_box maxd lowestd m = Some (Box (Pt maxd maxd maxd) (Pt lowestd lowestd lowestd)).
Proof. exact bounding_box_empty. Qed.
Print Assumptions C41_empty_mesh.
Example C41_example : exists l, visit unit_box = Some l /\ l <> [] /\ (forall t p d, In t l -> corner t p -> -1000 <= at_ d p <= 1000).
Proof.
  eexists. split; [reflexivity|]. split; [discriminate|]. intros t p d I C.
  repeat destruct I as [<- | I]; [..|destruct I]; destruct C as [-> | [-> | ->]]; destruct d; cbn; lra.
Qed.

(** *** C42 *)
Theorem C42_parallel_equals_sequential : forall m chunks, well_formed m -> (N.of_nat (num_triangles m) < 2 ^ 31)%N ->
  Permutation (concat chunks) (omp_indices m) ->
  mesh_area_omp chunks m = mesh_area m /\ mesh_volume_omp chunks m = mesh_volume m.
Proof. exact parallel_ok. Qed.
Print Assumptions C42_parallel_equals_sequential.
(** Below 2^31 triangles the parallel loop runs over all triangles. *)
Theorem C42_all_triangles : forall m, (N.of_nat (num_triangles m) < 2 ^ 31)%N -> omp_indices m = seq 0 (num_triangles m).
Proof. exact omp_indices_small. Qed.
Print Assumptions C42_all_triangles.
(** From 2^31 triangles on, the int loop counter makes the parallel sums 0. *)
Definition many (n : nat) : mesh pt := Mesh [Pt 0 0 0; Pt 1 0 0; Pt 0 1 0] (repeat (0, 1, 2)%nat n) (repeat (Pt 0 0 1) n).
Lemma many_wf n : well_formed (many n).
Proof.
  split; cbn [many m_vertices m_triangles m_normals]; [rewrite !repeat_length; reflexivity|].
  apply Forall_forall. intros t I. apply repeat_spec in I. subst. cbn. lia.
Qed.
Lemma many_area n : exists a, mesh_area (many n) = Some a /\ ((0 < n)%nat -> 0 < a).
Proof.
  destruct (visit_n_wf (many n) (many_wf n)) as [l Vi]. rewrite (area_visit _ _ Vi). eexists. split; [reflexivity|]. intros N.
  apply visit_seq in Vi as [L F]. unfold num_triangles in *. cbn [many m_triangles] in *. rewrite repeat_length in *.
  destruct l as [|q l]; [cbn in L; lia|]. specialize (F O ltac:(lia)). cbn [nth_error] in F. destruct n as [|n]; [lia|].
  cbn in F. injection F as ->. cbn [sum fst].
  assert (A : 0 < tri_area (Tri (Pt 0 0 0) (Pt 1 0 0) (Pt 0 1 0))).
  { unfold tri_area, cross, vsub. cbn [P1 P2 P3 px py pz].
    match goal with |- context [norm (Pt ?x ?y ?z)] => replace (Pt x y z) with (Pt 0 0 1) by (f_equal; ring) end.
    rewrite norm_unit_z. lra. }
  assert (P : 0 <= sum (fun q => tri_area (fst q)) l); [|lra].
  clear. induction l as [|q l IH]; cbn [sum]; [lra|]. assert (H := area_nonneg (fst q)). lra.
Qed.
Lemma too_many : exists m a, well_formed m /\ mesh_area m = Some a /\ 0 < a /\
  forall chunks, Permutation (concat chunks) (omp_indices m) -> mesh_area_omp chunks m = Some 0.
Proof.
  set (n := N.to_nat (2 ^ 31)). assert (En : N.of_nat n = (2 ^ 31)%N) by (unfold n; apply N2Nat.id).
  assert (Pn : (0 < n)%nat) by lia. clearbody n. destruct (many_area n) as [a [A P]]. exists (many n), a.
  split; [apply many_wf|]. split; [exact A|]. split; [apply P, Pn|]. intros chunks H.
  rewrite omp_indices_large in H by (unfold num_triangles; cbn [many m_triangles]; rewrite repeat_length, En; lia).
  apply concat_nil_perm in H.
  destruct (visit_chunks_some (triangle (many n)) chunks []) as [rc [C1 C2]]; [rewrite H; reflexivity|].
  unfold mesh_area_omp. rewrite C1. cbn [option_map]. rewrite reduction_sum, C2. reflexivity.
Qed.
Theorem C42_large_mesh_refuted : exists m a, well_formed m /\ mesh_area m = Some a /\ 0 < a /\
  forall chunks, Permutation (concat chunks) (omp_indices m) -> mesh_area_omp chunks m = Some 0.
Proof. exact too_many. Qed.
Print Assumptions C42_large_mesh_refuted.
Example C42_example : Permutation (concat [[3; 7]; []; [11; 10; 9; 8]; [0; 1; 2]; [6; 5; 4]]%nat) (omp_indices unit_box).
Proof.
  change (omp_indices unit_box) with (seq 0 12). cbn [concat app].
  apply NoDup_Permutation.
  - repeat constructor; cbn; intuition discriminate.
  - apply seq_NoDup.
  - intros x. rewrite in_seq. cbn. lia.
Qed.

(** *** C57 *)
(** The volume of a closed mesh with exact normals: the same from every direction, equal to the sum of the signed cones
    over the triangles, independent of the position of the mesh, and rated as perfect (0) by the quality estimate; with
    inward normals the estimate is 2. *)
Lemma closed_mesh m l v : visit_n m = Some l -> closed (map fst l) -> Forall exact_normal l ->
  mesh_volume m = Some (Rabs (1/6 * sum det (map fst l))) /\
  (forall d, mesh_volume_dir m d = mesh_volume m) /\
  (forall d, sum (fun q => tri_area (fst q) * at_ d (snd q)) l = 0) /\
  mesh_volume (move_mesh v m) = mesh_volume m /\ mesh_area (move_mesh v m) = mesh_area m /\
  (0 <= sum det (map fst l) -> estimate_quality m = Some 0) /\
  (1/6 * sum det (map fst l) <= - / 10 ^ 14 -> estimate_quality m = Some 2).
Proof.
  intros Vi C E. destruct (closed_volume m l Vi C E) as [V1 V2]. destruct (closed_quality m l Vi C E) as [Q1 Q2].
  destruct (move_volume v m l Vi C E) as [M1 M2].
  split; [exact V1|]. split; [intros d; rewrite V1; apply V2|]. split; [intros d; apply (closed_area l d C E)|].
  split; [exact M1|]. split; [exact M2|]. split; [|exact Q2]. intros P. apply Q1. lra.
Qed.
Theorem C57_closed_mesh : forall m l v, visit_n m = Some l -> closed (map fst l) -> Forall exact_normal l ->
  mesh_volume m = Some (Rabs (1/6 * sum det (map fst l))) /\
  (forall d, mesh_volume_dir m d = mesh_volume m) /\
  (forall d, sum (fun q => tri_area (fst q) * at_ d (snd q)) l = 0) /\
  mesh_volume (move_mesh v m) = mesh_volume m /\ mesh_area (move_mesh v m) = mesh_area m /\
  (0 <= sum det (map fst l) -> estimate_quality m = Some 0) /\
  (1/6 * sum det (map fst l) <= - / 10 ^ 14 -> estimate_quality m = Some 2).
Proof. exact closed_mesh. Qed.
Print Assumptions C57_closed_mesh.
(** For any mesh the estimate is at most q exactly if the volume from every
    direction deviates from the mean volume by at most q (relative), and the
    oriented areas add up to a vector of at most q times the area; both
    reference values are at least 1e-14. *)
Lemma quality_bound m l q : visit_n m = Some l ->
  let vol d := sum (fun t => at_ d (snd t) * at_ d (tri_center (fst t)) * tri_area (fst t)) l in
  let mean := Rabs ((vol AX + vol AY + vol AZ) / 3) in
  let gap d := sum (fun t => tri_area (fst t) * at_ d (snd t)) l in
  (exists e, estimate_quality m = Some e /\ e <= q) <->
  (forall d, Rabs (vol d - mean) <= q * Rmax mean (/ 10 ^ 14)) /\
  norm (Pt (gap AX) (gap AY) (gap AZ)) <= q * Rmax (Rabs (sum (fun t => tri_area (fst t)) l)) (/ 10 ^ 14).
Proof.
  intros Vi vol mean gap. assert (E10 : 0 < / 10 ^ 14) by (apply Rinv_0_lt_compat, pow_lt; lra).
  assert (D : forall a b, (a / Rmax b (/ 10 ^ 14) <= q <-> a <= q * Rmax b (/ 10 ^ 14))).
  { intros a b. assert (P : 0 < Rmax b (/ 10 ^ 14)) by (apply Rlt_le_trans with (/ 10 ^ 14); [exact E10|apply Rmax_r]). split; intros H.
    - apply (Rmult_le_compat_r (Rmax b (/ 10 ^ 14))) in H; [|lra]. unfold Rdiv in H. rewrite Rmult_assoc, Rinv_l in H by lra. lra.
    - apply (Rmult_le_reg_r (Rmax b (/ 10 ^ 14))); [exact P|]. unfold Rdiv. rewrite Rmult_assoc, Rinv_l by lra. lra. }
  assert (M : forall a b, Rmax a b <= q <-> a <= q /\ b <= q).
  { intros a b. split; [intros H; split; [apply Rle_trans with (Rmax a b); [apply Rmax_l|exact H]|apply Rle_trans with (Rmax a b); [apply Rmax_r|exact H]]|intros [A B]; apply Rmax_lub; assumption]. }
  unfold estimate_quality. rewrite Vi. cbn [option_map]. cbv zeta. rewrite !total_sum. fold (dir_volume AX) (dir_volume AY) (dir_volume AZ) (dir_area AX) (dir_area AY) (dir_area AZ).
  change (sum (dir_volume AX) l) with (vol AX). change (sum (dir_volume AY) l) with (vol AY). change (sum (dir_volume AZ) l) with (vol AZ).
  change (sum (dir_area AX) l) with (gap AX). change (sum (dir_area AY) l) with (gap AY). change (sum (dir_area AZ) l) with (gap AZ). fold mean.
  split.
  - intros [e [E H]]. injection E as <-. rewrite !M, !D in H. destruct H as [[[H1 H2] H3] H4]. split; [intros []; assumption|exact H4].
  - intros [H H4]. eexists. split; [reflexivity|]. rewrite !M, !D. split; [|exact H4]. split; [split; [apply (H AX)|apply (H AY)]|apply (H AZ)].
Qed.
Theorem C57_quality_bound : forall m l q, visit_n m = Some l ->
  let vol d := sum (fun t => at_ d (snd t) * at_ d (tri_center (fst t)) * tri_area (fst t)) l in
  let mean := Rabs ((vol AX + vol AY + vol AZ) / 3) in
  let gap d := sum (fun t => tri_area (fst t) * at_ d (snd t)) l in
  (exists e, estimate_quality m = Some e /\ e <= q) <->
  (forall d, Rabs (vol d - mean) <= q * Rmax mean (/ 10 ^ 14)) /\
  norm (Pt (gap AX) (gap AY) (gap AZ)) <= q * Rmax (Rabs (sum (fun t => tri_area (fst t)) l)) (/ 10 ^ 14).
Proof. exact quality_bound. Qed.
Print Assumptions C57_quality_bound.
(** A mesh in which every edge belongs to two triangles with opposite directions is closed. *)
Theorem C57_manifold_is_closed : forall (m : mesh pt) l, two_manifold m -> visit m = Some l -> closed l.
Proof. exact (manifold_closed (Pt 0 0 0)). Qed.
Print Assumptions C57_manifold_is_closed.
(** The normal computed by the library is exact for triangles whose area is above the tolerance. *)
Theorem C57_computed_normal : forall t, zerotol < norm (area2 t) -> exact_normal (t, tri_normal t) /\ norm (tri_normal t) = 1.
Proof. intros t H. split; [apply tri_normal_exact, H|]. rewrite tri_normal_unit. destruct (Rlt_dec _ _); [reflexivity | contradiction]. Qed.
Print Assumptions C57_computed_normal.
Example C57_example : visit_n unit_box = Some (box_tris (Pt 0 0 0) (Pt 1 1 1)) /\ closed (map fst (box_tris (Pt 0 0 0) (Pt 1 1 1))) /\
  Forall exact_normal (box_tris (Pt 0 0 0) (Pt 1 1 1)).
Proof.
  split; [reflexivity|]. split.
  - apply (manifold_closed (Pt 0 0 0) unit_box); [apply box_manifold | apply visit_fst, box_visit].
  - apply Forall_forall. intros q I. apply (box_exact _ _ q unit_ok I).
Qed.
