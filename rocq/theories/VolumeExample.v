(** An instance of the hypotheses of C67. *)
From Coq Require Import Reals QArith Qreals List Arith NArith ZArith Bool Lra Lia Permutation.
From Verif Require Import Geo GridModel GridSpec GridProofs GridGeoModel GridGeoProofs BoxModel BoxSpec BoxProofs BoxProps GgqModel GgqProofs GgqProps Ggq1dModel Ggq1dSpec Ggq1dProps GaussModel GaussProofs GaussProps
  MappingModel MappingProps PolyModel PolyProps TrimmedQuadModel TrimmedQuadProofs TrimmedQuadAssemble TrimmedQuadLemmas TrimmedQuadWitness NnlsModel NnlsProps MeshModel MeshProofs MeshGeoModel MeshGeoProofs MeshBoxProofs MeshSumProofs
  TriIpModel TriIpProps SearchModel GeoQueryModel GeoQueryProps DomainModel DomainProps ContourModel ContourWitness TrimSearchModel TrimSearchSpec TrimSearchGeo TrimSearchProps GridStoreModel GridStoreSpec GridStoreProofs
  DivSpec DivProofs DivMoment DivBox DivProps VolumeModel VolumeSpec VolumeProofs VolumeWitness.
Import ListNotations.
Local Open Scope R_scope.

(** *** Example: the box of C65 in a grid with one cell *)
Definition one_grid : indexer := Indexer (Grid 1 1 1) (cube 1) (cube 1) true.
Definition one_settings : settings := Settings (0, 0, 0)%nat (UseGauss Gauss) (1 / 100) 12 true (/ 10 ^ 5) None.
Definition one_oracles : oracles := Oracles (fun pl => ContourWitness.search (snap pl)) point_sort top_sort (fun _ _ _ => false) (fun _ => fifty) qeso_nnls (fun l => l) (fun _ => everywhere) (fun _ => full_state).
Definition all_cut : nat -> istate := fun _ => Trimmed.
Lemma one_bounds : bounds_at one_grid 0 = unit_bounds.
Proof.
  unfold bounds_at, unit_bounds. change (box_uvw one_grid 0) with (box_xyz one_grid 0). assert (E : box_xyz one_grid 0 = cube 1); [|rewrite E; reflexivity].
  assert (L : forall a, at_ a (lower (box_xyz one_grid 0)) = at_ a (lower (cube 1)) /\ at_ a (upper (box_xyz one_grid 0)) = at_ a (upper (cube 1))).
  { intros a. unfold box_xyz. rewrite cell_lower, cell_upper. assert (B : box_ok (gi_xyz one_grid)) by (intros []; cbn; lra). destruct (delta_eq (gi_grid one_grid) (gi_xyz one_grid) a B ltac:(destruct a; cbn; lia)) as [_ D].
    destruct a; cbn [n_at gi_grid one_grid gi_xyz nx ny nz INR at_ cube lower upper px py pz] in *; cbn; lra. }
  destruct (box_xyz one_grid 0) as [lo up]. change (cube 1) with (Box (lower (cube 1)) (upper (cube 1))). cbn [lower upper] in L. apply f_equal2; apply Geo.pt_eq; intros a; apply (L a).
Qed.

Lemma visited_corner (m : mesh pt) l t v : visit_n m = Some l -> In t l -> In v [P1 (fst t); P2 (fst t); P3 (fst t)] -> In v (m_vertices m).
Proof.
  intros V I C. apply visit_fst in V. apply visit_seq in V as [L F]. assert (I' : In (fst t) (map fst l)) by (apply in_map, I). apply In_nth_error in I' as [k E].
  assert (K : (k < num_triangles m)%nat) by (rewrite <- L; apply nth_error_Some; congruence). rewrite F in E by exact K. unfold triangle in E. destruct (nth_error (m_triangles m) k) as [[[a b] c]|]; [|discriminate].
  unfold MeshModel.corners in E. destruct (nth_error (m_vertices m) a) as [x|] eqn:Ea; [|discriminate]. destruct (nth_error (m_vertices m) b) as [y|] eqn:Eb; [|discriminate]. destruct (nth_error (m_vertices m) c) as [z|] eqn:Ec; [|discriminate].
  injection E as E. rewrite <- E in C. cbn [P1 P2 P3] in C. destruct C as [<- | [<- | [<- | []]]]; eapply nth_error_In; eassumption.
Qed.
Lemma box_of_small d l : visit_n (dm_closed d) = Some l -> Permutation l small_tris -> box_ok (vertices_box (m_vertices (dm_closed d))).
Proof.
  intros V P a. assert (H : forall t v, In t small_tris -> In v [P1 (fst t); P2 (fst t); P3 (fst t)] -> In v (m_vertices (dm_closed d))).
  { intros t v I. apply (visited_corner _ l t v V). apply (Permutation_in _ (Permutation_sym P)), I. }
  rewrite vertices_box_extend. destruct (fold_extend (m_vertices (dm_closed d)) (Box (Pt maxd maxd maxd) (Pt (- maxd) (- maxd) (- maxd))) a) as (_ & A & _ & B & _).
  assert (L : exists v w, In v (m_vertices (dm_closed d)) /\ In w (m_vertices (dm_closed d)) /\ at_ a v < at_ a w).
  { assert (Q : exists t u v w, In t small_tris /\ In u small_tris /\ In v [P1 (fst t); P2 (fst t); P3 (fst t)] /\ In w [P1 (fst u); P2 (fst u); P3 (fst u)] /\ at_ a v < at_ a w).
    { unfold small_tris, box_tris. cbv zeta. eexists _, _, _, _. split; [left; reflexivity|]. split; [right; right; left; reflexivity|]. split; [left; reflexivity|]. split; [right; left; reflexivity|]. destruct a; cbn; lra. }
    destruct Q as (t & u & v & w & It & Iu & Iv & Iw & Lt). exists v, w. eauto. }
  destruct L as (v & w & Iv & Iw & Lt). specialize (A v Iv). specialize (B w Iw). lra.
Qed.

Lemma small_area l : Permutation l small_tris -> sum tri_area (map fst l) = 3 / 2.
Proof.
  intros P. rewrite (sum_perm _ _ _ (Permutation_map fst P)). assert (B : box_ok (Box (Pt (1/4) (1/4) (1/4)) (Pt (3/4) (3/4) (3/4)))) by (intros []; cbn; lra).
  destruct (box_area_volume _ _ B) as (A & _). cbv zeta in A. cbn [px py pz] in A. rewrite (area_visit _ _ (box_visit _ _)) in A. assert (A' : forall x y, Some x = Some y -> x = y :> R) by congruence. apply A' in A. fold small_tris in A. rewrite sum_map, A. field.
Qed.
Lemma small_reach l : Permutation l small_tris -> reach_of (map fst l) <= 1.
Proof.
  intros P. assert (H : forall t, In t (map fst l) -> reach_pt (P1 t) <= 1 /\ reach_pt (P2 t) <= 1 /\ reach_pt (P3 t) <= 1).
  { intros t I. apply (Permutation_in _ (Permutation_map fst P)) in I.
    assert (R : forall x y z, In x [1/4; 3/4] -> In y [1/4; 3/4] -> In z [1/4; 3/4] -> reach_pt (Pt x y z) <= 1).
    { assert (S : forall x, In x [1/4; 3/4] -> Rabs x <= 1) by (intros x [<- | [<- | []]]; rewrite Rabs_pos_eq; lra). intros x y z X Y Z. unfold reach_pt. cbn [px py pz]. repeat apply Rmax_lub; apply S; assumption. }
    unfold small_tris, box_tris in I. cbn [map fst] in I. repeat destruct I as [<- | I]; [..|destruct I]; (split; [|split]); cbn [P1 P2 P3 px py pz]; apply R; cbn [In]; tauto. }
  revert H. induction (map fst l) as [|t L IH]; intros H; cbn [reach_of fold_right]; [lra|]. destruct (H t (or_introl eq_refl)) as (A & B & C).
  apply Rmax_lub; [apply Rmax_lub; [assumption|apply Rmax_lub; assumption]|apply IH; intros u I; apply H; right; exact I].
Qed.
Lemma small_volume l : Permutation l small_tris -> signed_volume (map fst l) = 1 / 8.
Proof.
  intros P. unfold signed_volume. rewrite (sum_perm _ _ _ (Permutation_map fst P)). unfold small_tris, box_tris, cone_det, dot, cross, vsub. cbn [map sum fst P1 P2 P3 px py pz]. field.
Qed.

Lemma one_moment d l bps : visit_n (dm_closed d) = Some l -> Permutation l small_tris -> domain_points d unit_bounds = Some bps -> zerotol <= constant_term (cube 1) bps (0, 0, 0)%nat.
Proof.
  intros V P E. assert (H := volume_moment unit_bounds (cube 1) d bps E). unfold surface_of in H. rewrite (visit_fst _ _ V), small_volume, small_area, map_length, (Permutation_length P) in H by exact P.
  assert (R := small_reach l P). assert (R0 := reach_ge (map fst l)). change (length small_tris) with 12%nat in H. assert (Z : zerotol <= / 10 ^ 3).
  { unfold zerotol. apply Rinv_le_contravar; [apply pow_lt; lra|]. apply Rle_pow; [lra|lia]. }
  assert (A : / 10 ^ 13 <= / 10 ^ 3) by (apply Rinv_le_contravar; [apply pow_lt; lra|apply Rle_pow; [lra|lia]]). assert (A0 : 0 < / 10 ^ 13) by (apply Rinv_0_lt_compat, pow_lt; lra).
  assert (B : / 10 ^ 14 <= / 10 ^ 3) by (apply Rinv_le_contravar; [apply pow_lt; lra|apply Rle_pow; [lra|lia]]). assert (B0 : 0 < / 10 ^ 14) by (apply Rinv_0_lt_compat, pow_lt; lra).
  replace (INR 12) with 12 in H by (cbn [INR]; ring). set (x := / 10 ^ 13 * (3 / 2) + / 10 ^ 14 * 12) in *.
  assert (X : x * reach_of (map fst l) <= / 20). { assert (0 <= x <= / 20) by (unfold x; split; lra). nra. }
  assert (Y : Rabs (constant_term (cube 1) bps (0, 0, 0)%nat - 1 / 8) <= / 20) by lra. destruct (Rcase_abs (constant_term (cube 1) bps (0, 0, 0)%nat - 1 / 8)) as [N|N]; [rewrite Rabs_left in Y by exact N|]; lra.
Qed.

Lemma small_in : 0 < / 10 ^ 5 < 1 /\ mind < / 10 ^ 5 /\ / 10 ^ 5 < maxd.
Proof.
  assert (A : 0 < / 10 ^ 5 < 1) by lra. split; [exact A|]. split.
  - unfold mind. apply Rinv_lt_contravar; [apply Rmult_lt_0_compat; apply pow_lt; lra|]. apply (Rlt_le_trans _ (2 ^ 17)); [lra|]. apply Rle_pow; [lra|lia].
  - unfold maxd. assert (B : 1 <= 2 ^ 1023) by (apply pow_R1_Rle; lra). assert (C : / 2 ^ 52 < 1) by (rewrite <- Rinv_1; apply Rinv_lt_contravar; [|apply Rlt_pow_R1; [lra|lia]]; rewrite Rmult_1_l; apply pow_lt; lra).
    set (y := 2 ^ 1023) in *. clearbody y. nra.
Qed.
Lemma one_run : exists g junk d l v x, geometry small_box g small_tris /\ make_query junk (map fst small_tris) true = Some g /\
  visit_n (dm_closed d) = Some l /\ Permutation l small_tris /\ 0 < v /\
  trimmed_element one_oracles one_settings one_grid small_box g 0 = Ok (Some (Content unit_bounds [IP x v] (Some d))) /\
  (exists bps, domain_points d unit_bounds = Some bps /\ constant_term (cube 1) bps (0, 0, 0)%nat = v) /\
  solvable one_oracles (0, 0, 0)%nat (Content unit_bounds [IP x v] (Some d)).
Proof.
  destruct small_geometry as [g G]. assert (G' := G). destruct G' as (_ & _ & _ & _ & junk & Eg).
  assert (S0 := unit_snap 0). rewrite Rplus_0_l in S0. assert (Ti := tiny). assert (Tp : 0 < / 10 ^ 12) by (apply Rinv_0_lt_compat, pow_lt; lra).
  assert (W : wide (Pt 0 0 0) (Pt 1 1 1)) by (intros i; rewrite S0; destruct i; cbn [at_ px py pz]; lra).
  assert (Se : forall vs, ContourProps.permutes (top_sort vs)) by (intros vs l; apply sort_by_perm).
  destruct small_measures as [V Q]. destruct small_in as ((P5 & P1) & Pm & PM).
  assert (I : forall c q, In q small_tris -> In c (ClipProps.corners_of (fst q)) -> forall i, 1 / 4 <= at_ i c <= 3 / 4).
  { intros c q Iq Ic i. unfold small_tris, box_tris in Iq. repeat destruct Iq as [<- | Iq]; [..|destruct Iq]; destruct Ic as [<- | [<- | [<- | []]]]; destruct i; cbn; lra. }
  assert (Ic : TrimSearchInside.inside_cell (Pt 0 0 0) (Pt 1 1 1) small_tris) by (intros q c i Iq Icc; rewrite S0; specialize (I c q Iq Icc i); destruct i; cbn [at_ px py pz] in *; lra).
  assert (Cv : cell_volume (Pt 0 0 0) (Pt 1 1 1) = 1) by (unfold cell_volume; cbn [px py pz]; ring).
  assert (Mr : min_ratio one_settings = 1 / 100). { unfold min_ratio. cbn [se_ratio one_settings]. apply Rmax_left. replace (1 / 100) with (/ 10 ^ 2) by lra. apply Rinv_le_contravar; [lra|apply Rle_pow; [lra|lia]]. }
  destruct (C65_inside small_box g small_tris (fun pl => ContourWitness.search (snap pl)) point_sort top_sort (fun _ _ _ => false) fifty (Pt 0 0 0) (Pt 1 1 1) (1 / 100) 12 true (1 / 8) 0 G W Se Ic (fun _ _ _ _ _ => eq_refl) (le_n 12) V Q P5) as [_ X].
  rewrite Cv in X. destruct (X ltac:(lra)) as (d & l & E & Vd & Pl & _).
  destruct (domain_points d unit_bounds) as [bps|] eqn:Eb; [|exfalso; unfold domain_points in Eb; rewrite Vd in Eb; cbn [ClipModel.and_then] in Eb; rewrite domain_ips_flat in Eb; discriminate].
  assert (Hv := one_moment d l bps Vd Pl Eb). assert (HX := box_of_small d l Vd Pl). set (v := constant_term (cube 1) bps (0, 0, 0)%nat) in *.
  destruct (accepted_of mind maxd (/ 10 ^ 5) v Pm P5 PM Hv (vertices_box (m_vertices (dm_closed d))) HX bps eq_refl) as (x & _ & Ea).
  exists g, junk, d, l, v, x. split; [exact G|]. split; [exact Eg|]. split; [exact Vd|]. split; [exact Pl|]. split; [exact (v_pos v Hv)|]. split; [|split].
  - unfold trimmed_element. rewrite one_bounds, Mr. cbn [unit_bounds eb_global cube lower upper one_oracles or_lookup or_sort_points or_sort_edges or_inside or_random one_settings se_min se_neglect].
    rewrite E. unfold fit_domain. rewrite Eb. cbn [one_oracles or_nnls or_sort or_contains or_state one_settings se_order se_residual se_alpha]. rewrite Ea. reflexivity.
  - exists bps. split; [exact Eb|reflexivity].
  - intros d0 E0. cbn [co_domain] in E0. injection E0 as <-. split; [exact HX|]. cbn [co_bounds]. intros bps0 E0. rewrite Eb in E0. injection E0 as <-. split.
    + exists 0%nat, 0%nat, 0%nat. split; [cbn; lia|]. cbn [eb_global unit_bounds]. fold v. assert (Y := v_pos v Hv). lra.
    + intros cand Hc. cbn [or_nnls one_oracles eb_global unit_bounds]. change (map (constant_term (cube 1) bps) (rows (0, 0, 0)%nat)) with [v]. apply (contract_v v Hv). exact Hc.
Qed.
Lemma one_volume : exists junk inf s e, compute_volume one_oracles one_settings one_grid all_cut junk small_box [omp_indices small_box] [0%nat] = Ok (inf, s) /\
  st_untrimmed s = [] /\ st_trimmed s = [e] /\ solvable one_oracles (se_order one_settings) (e_data e) /\ signed_volume (element_surface (e_data e)) = 1 / 8 /\ in_volume inf = 1 / 8.
Proof.
  destruct one_run as (g & junk & d & l & v & x & G & Eg & Vd & Pl & Hv & Et & _ & So). exists junk. unfold compute_volume.
  assert (Np : Permutation (concat [omp_indices small_box]) (omp_indices small_box)) by (cbn [concat]; rewrite app_nil_r; apply Permutation_refl).
  rewrite (proj2 (parallel_ok small_box [omp_indices small_box] (proj1 G) ltac:(reflexivity) Np)). destruct small_measures as [V Q]. rewrite V, Q. unfold small_box at 1. rewrite (visit_fst _ _ (box_visit _ _)). cbn [ClipModel.and_then].
  fold small_tris. rewrite Eg. unfold create_elements. cbn [forallb all_cut]. rewrite Et. cbn [is_ok andb]. cbn [finish_elements one_settings se_method].
  assert (R : run_loop all_cut (fun i => value (trimmed_element one_oracles one_settings one_grid small_box g i)) (fun i => value (full_element one_settings one_grid i)) [0%nat] =
    Store [] [Elem 1 (Content unit_bounds [IP x v] (Some d))] (st_map (run_loop all_cut (fun i => value (trimmed_element one_oracles one_settings one_grid small_box g i)) (fun i => value (full_element one_settings one_grid i)) [0%nat]))).
  { unfold run_loop. cbn [map]. unfold loop_event. cbn [all_cut]. rewrite Et. reflexivity. }
  eexists _, _, _. split; [reflexivity|]. rewrite R. cbn [st_untrimmed st_trimmed]. split; [reflexivity|]. split; [reflexivity|]. split; [exact So|]. split; [|reflexivity].
  unfold element_surface, surface_of. cbn [e_data co_domain]. rewrite (visit_fst _ _ Vd). apply small_volume, Pl.
Qed.

(** *** Two cells of a grid with 64 cells are inside, with the generalized Gauss rules *)
Definition two_inside : nat -> istate := fun i => if ((i =? 21) || (i =? 22))%nat then Inside else Outside.
Definition ggq_settings : settings := Settings (2, 2, 2)%nat (UseGgq Optimal) (1 / 100) 12 true (/ 10 ^ 5) None.
Lemma two_boxes : assemble_boxes (gi_grid ex_gi) (full_cell two_inside (num_elements (gi_grid ex_gi))) = Some [([21; 22]%nat, C3 2 1 1)].
Proof. vm_compute. reflexivity. Qed.
Lemma two_bounds a : at_ a (lower (bounds_of (box_uvw ex_gi) [21; 22]%nat)) = 1 /\ at_ a (upper (bounds_of (box_uvw ex_gi) [21; 22]%nat)) = match a with AX => 3 | _ => 2 end.
Proof.
  assert (Hg : grid_ok (gi_grid ex_gi)) by (repeat constructor). assert (Hb : box_ok (gi_uvw ex_gi)) by (intros []; simpl; lra). destruct ex_cuboid as (Hn & HN & S1 & S2 & S3 & lo & L1 & L2 & L3 & Hl).
  assert (lo = C3 1 1 1) as ->.
  { assert (BoxSpec.within lo (C3 2 1 1) (C3 1 1 1)) as A by (apply Hl; [unfold in_grid; simpl; lia|vm_compute; tauto]). assert (BoxSpec.within lo (C3 2 1 1) (C3 2 1 1)) as B by (apply Hl; [unfold in_grid; simpl; lia|vm_compute; tauto]).
    unfold BoxSpec.within in A, B. simpl in A, B. destruct lo as [x y z]; simpl in *. f_equal; lia. }
  destruct (bb_bounds ex_gi Hg Hb eq_refl [21; 22]%nat (C3 2 1 1) (C3 1 1 1) Hn HN ltac:(simpl; lia) ltac:(simpl; lia) Hl a) as (E1 & E2). rewrite E1, E2, ex_delta. destruct a; simpl; lra.
Qed.
Definition in_unit (l : qrule) : bool := forallb (fun q => Qle_bool 0 (fst q) && Qle_bool (fst q) (98 # 100)) l.
Lemma in_unit_real l q : in_unit l = true -> In q (real_rule l) -> 0 <= fst q <= 98 / 100.
Proof.
  intros H I. unfold GaussModel.real_rule in I. apply in_map_iff in I as (p & <- & I). unfold in_unit in H. rewrite forallb_forall in H. specialize (H p I). apply andb_prop in H as [A B]. apply Qle_bool_iff in A, B.
  apply Qle_Rle in A, B. cbn [fst]. rewrite RMicromega.Q2R_0 in A. replace (98 / 100) with (Q2R (98 # 100)) by (unfold Q2R; cbn; lra). lra.
Qed.
Lemma two_rule a : exists l, get_ggq (order_at ggq_settings a) (c_at a (C3 2 1 1)) Optimal = Some l /\ in_unit l = true.
Proof.
  assert (H : match get_ggq (order_at ggq_settings a) (c_at a (C3 2 1 1)) Optimal with Some l => in_unit l | None => false end = true) by (destruct a; vm_compute; reflexivity).
  destruct (get_ggq _ _ _) as [l|]; [exists l; auto|discriminate].
Qed.
Lemma two_guard : ggq_guard ggq_settings ex_gi two_inside.
Proof.
  cbn [ggq_guard ggq_settings se_method]. split; [reflexivity|]. split; [intros []; cbn; lia|]. split.
  - apply interior_no_wrap; [repeat constructor|]. intros c Hc Hu. 
        assert (A : forall c, in_grid (gi_grid ex_gi) c -> implb (full_cell two_inside (num_elements (gi_grid ex_gi)) (GridModel.vec_of (gi_grid ex_gi) c)) ((0 <? cx c) && (0 <? cy c) && (0 <? cz c) && (cx c <? 3) && (cy c <? 3) && (cz c <? 3))%nat = true).
    { apply all_cells. vm_compute. reflexivity. }
    specialize (A c Hc). rewrite Hu in A. cbn [implb] in A. repeat (apply andb_prop in A as [A ?]). repeat match goal with H : (_ <? _)%nat = true |- _ => apply Nat.ltb_lt in H end. cbn. lia.
  - intros boxes l s E I. rewrite two_boxes in E. injection E as <-. destruct I as [I|[]]. injection I as <- <-. intros a q Hq. destruct (two_bounds a) as [E1 E2]. rewrite E1, E2.
    unfold box_rules, box_rule in Hq. destruct (two_rule a) as (r & Er & Hr). rewrite Er in Hq. cbn [option_map] in Hq.
    assert (Z := in_unit_real _ _ Hr Hq). assert (Y := eps3_small). split; [lra|]. destruct a; lra.
Qed.
Lemma two_volume : exists junk inf s, compute_volume one_oracles ggq_settings ex_gi two_inside junk small_box [omp_indices small_box] [22; 21]%nat = Ok (inf, s) /\ st_trimmed s = [] /\ length (st_untrimmed s) = 2%nat.
Proof.
  destruct one_run as (g & junk & d & l & v & x & G & Eg & _). exists junk. unfold compute_volume.
  assert (Np : Permutation (concat [omp_indices small_box]) (omp_indices small_box)) by (cbn [concat]; rewrite app_nil_r; apply Permutation_refl).
  rewrite (proj2 (parallel_ok small_box [omp_indices small_box] (proj1 G) ltac:(reflexivity) Np)). destruct small_measures as [V Q]. rewrite V, Q. unfold small_box at 1. rewrite (visit_fst _ _ (box_visit _ _)). cbn [ClipModel.and_then].
  fold small_tris. rewrite Eg. unfold create_elements. change (two_inside 22) with Inside. cbn [forallb]. change (two_inside 22) with Inside. change (two_inside 21) with Inside. cbv iota. unfold full_element. cbn [ggq_settings se_method is_ok andb].
  set (s := run_loop _ _ _ _). assert (R : st_untrimmed s = [Elem 23 (Content (bounds_at ex_gi 22) [] None); Elem 22 (Content (bounds_at ex_gi 21) [] None)] /\ st_trimmed s = []) by (split; reflexivity).
  destruct R as [R1 R2]. assert (B : assemble_boxes (gi_grid ex_gi) (is_full s) = Some [([21; 22]%nat, C3 2 1 1)]).
  { rewrite <- two_boxes. f_equal. apply (full_flag one_oracles ggq_settings ex_gi two_inside small_box g [22; 21]%nat); [apply perm_swap|reflexivity]. }
  clearbody s. unfold finish_elements. cbn [ggq_settings se_method]. unfold ggq_points. rewrite B. cbn [ClipModel.and_then map]. unfold box_assembly. cbn [snd]. unfold box_rule.
  destruct (two_rule AX) as (rx & Ex & _), (two_rule AY) as (ry & Ey & _), (two_rule AZ) as (rz & Ez & _). rewrite Ex, Ey, Ez. cbn [option_map all_of].
  eexists _, _. split; [reflexivity|]. unfold extend_elements. cbn [st_trimmed st_untrimmed]. rewrite R1, R2. split; reflexivity.
Qed.
