(** Proofs about ComputeVolume. *)
From Coq Require Import Reals QArith Qabs Qreals List Arith NArith ZArith Bool Lra Lia Permutation FunctionalExtensionality.
From Verif Require Import Geo GridModel GridSpec GridProofs GridGeoModel GridGeoProofs BoxModel BoxSpec BoxProofs BoxProps GgqModel GgqProofs GgqProps Ggq1dModel Ggq1dSpec Ggq1dProps GaussModel GaussProofs GaussProps
  MappingModel MappingProps PolyModel PolyProps TrimmedQuadModel TrimmedQuadProofs TrimmedQuadAssemble TrimmedQuadLemmas MeshModel MeshProofs MeshGeoModel MeshGeoProofs MeshBoxProofs MeshSumProofs TriIpModel TriIpProps
  SearchModel GeoQueryModel DomainModel DomainProps ContourModel TrimSearchModel TrimSearchGeo GridStoreModel GridStoreSpec GridStoreProofs DivSpec DivProofs DivMoment DivBox DivProps VolumeModel VolumeSpec.
Import ListNotations.
Local Open Scope R_scope.

(** *** The volume from the boundary points *)
Lemma reach_pt_at p a : Rabs (at_ a p) <= reach_pt p.
Proof.
  unfold reach_pt. destruct a; cbn [at_]; [apply Rmax_l | |]; (eapply Rle_trans; [|apply Rmax_r]); [apply Rmax_l | apply Rmax_r].
Qed.
Lemma reach_ge l : 0 <= reach_of l.
Proof. induction l as [|t l IH]; cbn [reach_of fold_right]; [lra|]. eapply Rle_trans; [exact IH|apply Rmax_r]. Qed.
Definition bounded_by (M : R) (t : tri pt) : Prop := forall a, Rabs (at_ a (P1 t)) <= M /\ Rabs (at_ a (P2 t)) <= M /\ Rabs (at_ a (P3 t)) <= M.
Lemma bounded_weaken M M' t : M <= M' -> bounded_by M t -> bounded_by M' t.
Proof. intros L H a. destruct (H a) as (A & B & C). lra. Qed.
Lemma reach_bounds l t : In t l -> bounded_by (reach_of l) t.
Proof.
  induction l as [|s l IH]; intros I; [destruct I|]. cbn [reach_of fold_right]. destruct I as [-> | I].
  - intros a. assert (A := reach_pt_at (P1 t) a). assert (B := reach_pt_at (P2 t) a). assert (C := reach_pt_at (P3 t) a).
    set (m := fold_right _ _ _). assert (D := Rmax_l (Rmax (reach_pt (P1 t)) (Rmax (reach_pt (P2 t)) (reach_pt (P3 t)))) m).
    assert (E := Rmax_l (reach_pt (P1 t)) (Rmax (reach_pt (P2 t)) (reach_pt (P3 t)))). assert (F := Rmax_r (reach_pt (P1 t)) (Rmax (reach_pt (P2 t)) (reach_pt (P3 t)))).
    assert (G := Rmax_l (reach_pt (P2 t)) (reach_pt (P3 t))). assert (H := Rmax_r (reach_pt (P2 t)) (reach_pt (P3 t))). lra.
  - apply (bounded_weaken (reach_of l)); [apply Rmax_r | exact (IH I)].
Qed.
Lemma dot_bound M t p : (forall a, Rabs (at_ a p) <= M) -> Rabs (dot (area2 t) p) <= 3 * norm (area2 t) * M.
Proof.
  intros H. assert (X := comp_norm AX (area2 t)). assert (Y := comp_norm AY (area2 t)). assert (Z := comp_norm AZ (area2 t)). cbn [at_] in X, Y, Z.
  assert (A := H AX). assert (B := H AY). assert (C := H AZ). cbn [at_] in A, B, C. unfold dot.
  assert (P : forall x y, Rabs x <= norm (area2 t) -> Rabs y <= M -> Rabs (x * y) <= norm (area2 t) * M).
  { intros x y U V. rewrite Rabs_mult. apply Rmult_le_compat; try assumption; apply Rabs_pos. }
  eapply Rle_trans; [apply Rabs_triang|]. eapply Rle_trans; [apply Rplus_le_compat_r, Rabs_triang|].
  assert (Q1 := P _ _ X A). assert (Q2 := P _ _ Y B). assert (Q3 := P _ _ Z C). lra.
Qed.
Lemma cone_area t : cone_det (Pt 0 0 0) t = dot (area2 t) (P1 t).
Proof. unfold cone_det, area2, dot, cross, vsub. cbn [px py pz]. ring. Qed.
Lemma area_norm t : norm (area2 t) = 2 * tri_area t.
Proof. unfold tri_area. fold (area2 t). field. Qed.
Lemma third_0 b p : third b (0, 0, 0)%nat p = vscale (1 / 3) p.
Proof. unfold third, flux, vscale. cbn [f_x f_x_int px py pz]. f_equal; ring. Qed.
Lemma triangle_volume eb b M t : 0 <= M -> bounded_by M t ->
  Rabs (sum (fun q => dot (bp_normal q) (flux b (0, 0, 0)%nat (bp_pos q)) * (1 / 3 * bp_weight q)) (local_ips Global eb t) - 1 / 6 * cone_det (Pt 0 0 0) t)
    <= (/ 10 ^ 13 * tri_area t + / 10 ^ 14) * M.
Proof.
  intros M0 H. assert (N0 : 0 <= tri_area t) by (unfold tri_area; assert (X := sqrt_pos (px (area2 t) * px (area2 t) + py (area2 t) * py (area2 t) + pz (area2 t) * pz (area2 t))); change (norm (cross (vsub (P2 t) (P1 t)) (vsub (P3 t) (P1 t)))) with (norm (area2 t)); unfold norm; lra).
  assert (T13 : 0 < / 10 ^ 13) by (apply Rinv_0_lt_compat, pow_lt; lra). assert (T14 : 0 < / 10 ^ 14) by (apply Rinv_0_lt_compat, pow_lt; lra).
  destruct (Rlt_dec zerotol (norm (area2 t))) as [S | S].
  - rewrite (triangle_term eb b _ t (or_introl S)).
    assert (C : bary 1 (norm (area2 t) * M) (fun p => px p * (1 / 3 * dot (area2 t) (P1 t)) + py p * (1 / 3 * dot (area2 t) (P2 t)) + pz p * (1 / 3 * dot (area2 t) (P3 t)))).
    { apply bary_affine; rewrite Rabs_mult, (Rabs_right (1 / 3)) by lra.
      - assert (D := dot_bound M t (P1 t) (fun a => proj1 (H a))). lra.
      - assert (D := dot_bound M t (P2 t) (fun a => proj1 (proj2 (H a)))). lra.
      - assert (D := dot_bound M t (P3 t) (fun a => proj2 (proj2 (H a)))). lra. }
    assert (B : bary 6 (norm (area2 t) * M) (fun p => dot (area2 t) (third b (0, 0, 0)%nat (combo t p)))).
    { eapply bary_ext; [|apply (bary_weaken 1 6 (norm (area2 t) * M)); [lia|apply Rle_refl|exact C]]. intros p _. rewrite third_0. unfold dot, combo, vadd, vscale. cbn [px py pz]. ring. }
    assert (V : over_triangle (fun u w => dot (area2 t) (third b (0, 0, 0)%nat (combo t (Pt (1 - u - w) u w)))) (1 / 6 * cone_det (Pt 0 0 0) t)).
    { assert (X := over_triangle_scal (1 / 3 * cone_det (Pt 0 0 0) t) _ _ (over_triangle_mono 0 0 0)). replace (1 / 6 * cone_det (Pt 0 0 0) t) with (1 / 3 * cone_det (Pt 0 0 0) t * dirichlet 0 0 0) by (unfold dirichlet; cbn; field).
      revert X. apply over_triangle_ext. intros u w. rewrite third_0. unfold cone_det, area2, dot, combo, vadd, vscale, cross, vsub. cbn [pow px py pz]. ring. }
    eapply Rle_trans; [apply (rule_error _ _ _ B V)|]. rewrite area_norm. assert (0 <= / 10 ^ 14 * M) by (apply Rmult_le_pos; lra). lra.
  - assert (E : sum (fun q => dot (bp_normal q) (flux b (0, 0, 0)%nat (bp_pos q)) * (1 / 3 * bp_weight q)) (local_ips Global eb t) = 0).
    { assert (N : tri_normal t = Pt 0 0 0) by (rewrite tri_normal_eq; destruct (Rlt_dec zerotol (norm (area2 t))); [contradiction|reflexivity]).
      unfold local_ips. generalize tri_points4. intros l. induction l as [|[[x y] w] l IH]; cbn [map sum]; [reflexivity|]. rewrite IH. cbn [global_ip b_normal bp_normal]. rewrite N. unfold dot. cbn [px py pz]. ring. }
    rewrite E, Rminus_0_l, Rabs_Ropp, Rabs_mult, (Rabs_right (1 / 6)), cone_area by lra.
    assert (D := dot_bound M t (P1 t) (fun a => proj1 (H a))). assert (Z : norm (area2 t) <= / 10 ^ 14) by (apply Rnot_lt_le in S; exact S).
    assert (Q : norm (area2 t) * M <= / 10 ^ 14 * M) by (apply Rmult_le_compat_r; assumption). assert (0 <= / 10 ^ 13 * tri_area t * M) by (apply Rmult_le_pos; [apply Rmult_le_pos; lra|lra]). lra.
Qed.
Lemma volume_moment eb b d bps : domain_points d eb = Some bps ->
  Rabs (constant_term b bps (0, 0, 0)%nat - signed_volume (surface_of d))
    <= (/ 10 ^ 13 * sum tri_area (surface_of d) + / 10 ^ 14 * INR (length (surface_of d))) * reach_of (surface_of d).
Proof.
  unfold domain_points, surface_of. destruct (visit_n (dm_closed d)) as [l|] eqn:V; cbn [ClipModel.and_then]; [|discriminate]. intros E. rewrite (visit_fst _ _ V).
  rewrite domain_ips_flat in E. apply some_inj in E. subst bps. unfold constant_term. rewrite fold_sum, Rplus_0_l, sum_flat'. unfold signed_volume. rewrite !sum_map, map_length.
  assert (G : forall M, 0 <= M -> (forall q, In q l -> bounded_by M (fst q)) ->
    Rabs (sum (fun a => sum (fun q => dot (bp_normal q) (flux b (0, 0, 0)%nat (bp_pos q)) * (1 / 3 * bp_weight q)) (local_ips Global eb (fst a))) l - sum (fun q => 1 / 6 * cone_det (Pt 0 0 0) (fst q)) l)
    <= (/ 10 ^ 13 * sum (fun q => tri_area (fst q)) l + / 10 ^ 14 * INR (length l)) * M).
  { intros M M0. clear V. induction l as [|q l IH]; intros H; cbn [sum length].
    - rewrite Rminus_0_r, Rabs_R0. cbn [INR]. lra.
    - specialize (IH (fun q I => H q (or_intror I))). assert (T := triangle_volume eb b M (fst q) M0 (H q (or_introl eq_refl))). rewrite S_INR.
      match goal with |- Rabs (?x + ?xs - (?y + ?ys)) <= _ => replace (x + xs - (y + ys)) with ((x - y) + (xs - ys)) by ring end.
      eapply Rle_trans; [apply Rabs_triang|]. lra. }
  apply G; [apply reach_ge|]. intros q I. apply reach_bounds, in_map, I.
Qed.

(** *** One trimmed element *)
Lemma rsum_sum {A} (f : A -> R) l : rsum (map f l) = sum f l.
Proof. induction l as [|a l IH]; [reflexivity|]. cbn [map sum]. unfold rsum in *. cbn [fold_right]. rewrite IH. reflexivity. Qed.
Lemma sum_scale {A} c (f : A -> R) l : sum (fun a => c * f a) l = c * sum f l.
Proof. induction l as [|a l IH]; cbn [sum]; [ring|]. rewrite IH. ring. Qed.
Lemma sum_bound {A} (f : A -> R) c l : (forall a, In a l -> 0 <= f a <= c) -> 0 <= sum f l <= INR (length l) * c.
Proof.
  induction l as [|a l IH]; intros H; cbn [sum length]; [cbn [INR]; lra|]. specialize (IH (fun a I => H a (or_intror I))). assert (X := H a (or_introl eq_refl)). rewrite S_INR. lra.
Qed.
Definition orders_ok (o : nat * nat * nat) : Prop := (let '(a, b, c) := o in a <= 8 /\ b <= 8 /\ c <= 8)%nat.
Lemma fitted_volume oc se b d pts : permutes (or_sort oc) -> bounds_ok b -> orders_ok (se_order se) -> mind < se_residual se -> se_alpha se = None ->
  fit_domain oc se b d = Ok (Some pts) -> solvable oc (se_order se) (Content b pts (Some d)) ->
  Rabs (det_j b * sum ip_weight pts - signed_volume (surface_of d)) <= trimmed_error (se_order se) (Content b pts (Some d)).
Proof.
  intros HS Hb Ho Ht Ha F Sv. destruct (Sv d eq_refl) as (BX & K). clear Sv. unfold fit_domain in F. destruct (domain_points d b) as [bps|] eqn:EP; [|discriminate].
  rewrite Ha in F. cbn [co_bounds] in K. destruct (K bps EP) as (Nz & C). clear K.
  destruct (accurate_fit _ _ _ _ _ _ _ _ _ bps _ pts HS Hb BX Ho Ht Nz F) as (cand & r & C1 & _ & _ & _ & _ & Q).
  destruct (Q (C cand C1)) as (D & R0 & W & L & Mo). clear Q C.
  assert (I0 : moment_index (se_order se) 0 0 0) by (destruct (se_order se) as [[? ?] ?]; unfold moment_index; lia). specialize (Mo 0%nat 0%nat 0%nat I0).
  unfold trimmed_error, moments_norm. cbn [co_domain co_bounds]. rewrite EP. set (N := sqrt (rsum _)) in Mo.
  assert (EN : sqrt (sum (fun r0 => constant_term (eb_global b) bps r0 ^ 2) (rows (se_order se))) = N).
  { unfold N. f_equal. rewrite map_map, rsum_sum. apply sum_ext. intros x _. ring. }
  rewrite EN. assert (N0 : 0 <= N) by apply sqrt_pos. assert (Dj := det_j_pos _ Hb).
  assert (Vm := volume_moment b (eb_global b) d bps EP). set (v := constant_term (eb_global b) bps (0, 0, 0)%nat) in *.
  set (e2 := (/ 10 ^ 13 * _ + _) * _) in *.
  assert (ES : rsum (map (fun q => ip_weight q * det_j b * phi (eb_global b) 0 0 0 (to_global (ip_pos q) b)) (pts ++ D)) = det_j b * sum ip_weight pts + det_j b * sum ip_weight D).
  { rewrite rsum_sum, <- Rmult_plus_distr_l, <- sum_app, <- sum_scale. apply sum_ext. intros q _. rewrite phi_0. ring. }
  rewrite ES in Mo. assert (SD := sum_bound ip_weight (/ 10 ^ 14) D (fun q I => let '(conj A B) := W q I in conj A (Rlt_le _ _ B))).
  assert (LD : INR (length D) <= INR (moments_of (se_order se))) by (apply le_INR; rewrite app_length in L; lia).
  assert (T14 : 0 < / 10 ^ 14) by (apply Rinv_0_lt_compat, pow_lt; lra).
  assert (LD' : INR (length D) * / 10 ^ 14 <= INR (moments_of (se_order se)) * / 10 ^ 14) by (apply Rmult_le_compat_r; lra).
  assert (X1 : 0 <= det_j b * sum ip_weight D) by (apply Rmult_le_pos; lra).
  assert (X2 : det_j b * sum ip_weight D <= INR (moments_of (se_order se)) * / 10 ^ 14 * det_j b).
  { rewrite (Rmult_comm (det_j b)). apply Rmult_le_compat_r; lra. }
  assert (X3 : r * N <= / 100 * N) by (apply Rmult_le_compat_r; lra).
  replace (det_j b * sum ip_weight pts - signed_volume (surface_of d)) with
    ((det_j b * sum ip_weight pts + det_j b * sum ip_weight D - v) + (v - signed_volume (surface_of d)) - det_j b * sum ip_weight D) by ring.
  set (x := det_j b * sum ip_weight D) in *. set (y := det_j b * sum ip_weight pts) in *. clearbody x y. assert (A1 := Rle_abs (y + x - v)). assert (A2 := Rle_abs (- (y + x - v))). rewrite Rabs_Ropp in A2.
  assert (A3 := Rle_abs (v - signed_volume (surface_of d))). assert (A4 := Rle_abs (- (v - signed_volume (surface_of d)))). rewrite Rabs_Ropp in A4.
  apply Rabs_le. lra.
Qed.

(** *** The elements that are created *)
Section Store.
Context {A : Type}.
Variables (cls : nat -> istate) (bt bu : nat -> option A).
Definition some_elem (i : nat) (o : option A) : list (elem A) := match o with Some a => [Elem (i + 1) a] | None => [] end.
Definition untrimmed_of (i : nat) : list (elem A) := match cls i with Trimmed => [] | _ => some_elem i (bu i) end.
Definition trimmed_of (i : nat) : list (elem A) := match cls i with Trimmed => some_elem i (bt i) | _ => [] end.
Lemma run_lists l : NoDup l -> st_untrimmed (run_loop cls bt bu l) = flat_map untrimmed_of l /\ st_trimmed (run_loop cls bt bu l) = flat_map trimmed_of l.
Proof.
  induction l as [|i l IH] using rev_ind; intros N; [split; reflexivity|].
  apply NoDup_remove in N. rewrite app_nil_r in N. destruct N as [N Ni]. specialize (IH N). destruct IH as [I1 I2].
  assert (F : map_find (st_map (run_loop cls bt bu l)) (i + 1) = None).
  { destruct (inv_run (map (loop_event cls bt bu) l)) as [I _]. specialize (I (i + 1)%nat).
    destruct (created (map (loop_event cls bt bu) l) (i + 1)) as [[t a]|] eqn:E; [|exact I].
    apply created_loop in E. destruct E as (j & Ij & E & _). assert (j = i) as -> by lia. contradiction. }
  unfold run_loop in *. rewrite map_app. unfold run in *. rewrite fold_left_app. cbn [map fold_left]. set (s := fold_left step _ empty_store) in *.
  rewrite !flat_map_app. cbn [flat_map]. rewrite !app_nil_r, <- I1, <- I2. unfold step, loop_event, untrimmed_of, trimmed_of, some_elem.
  destruct (cls i); cbn [ev_trimmed ev_id ev_built]; unfold make_element.
  - destruct (bu i); [rewrite F|]; cbn [fst st_untrimmed st_trimmed]; rewrite ?app_nil_r; split; reflexivity.
  - destruct (bu i); [rewrite F|]; cbn [fst st_untrimmed st_trimmed]; rewrite ?app_nil_r; split; reflexivity.
  - destruct (bt i); [rewrite F|]; cbn [fst st_untrimmed st_trimmed]; rewrite ?app_nil_r; split; reflexivity.
Qed.
End Store.
Lemma flat_perm {A B} (f : A -> list B) l l' : Permutation l l' -> Permutation (flat_map f l) (flat_map f l').
Proof. intros P. rewrite !flat_map_concat_map. induction P; cbn [map concat]; [constructor|apply Permutation_app_head; assumption| |eapply Permutation_trans; eassumption]. rewrite !app_assoc. apply Permutation_app_tail, Permutation_app_comm. Qed.
Lemma iterations_all gi cls : (N.of_nat (length (active_indices cls (num_elements (gi_grid gi)))) < 2 ^ 31)%N -> iterations gi cls = active_indices cls (num_elements (gi_grid gi)).
Proof. intros H. unfold iterations. rewrite int_of_size_small by exact H. rewrite nat_N_Z, Nat2Z.id. apply firstn_all. Qed.
Lemma active_nodup cls n : NoDup (active_indices cls n).
Proof. apply NoDup_filter, seq_NoDup. Qed.
Lemma active_in cls n i : In i (active_indices cls n) <-> (i < n)%nat /\ cls i <> Outside.
Proof. unfold active_indices. rewrite filter_In, in_seq. destruct (cls i); split; intros [H1 H2]; split; try lia; try discriminate; try reflexivity; congruence. Qed.
Lemma flat_filter {A B} (p : A -> bool) (f : A -> list B) l : (forall a, p a = false -> f a = []) -> flat_map f (List.filter p l) = flat_map f l.
Proof. intros H. induction l as [|a l IH]; [reflexivity|]. cbn [List.filter flat_map]. destruct (p a) eqn:E; cbn [flat_map]; rewrite IH; [reflexivity|]. rewrite (H a E). reflexivity. Qed.
Lemma flat_active {B} cls n (f : nat -> list B) st : st <> Outside -> (forall i, cls i <> st -> f i = []) -> flat_map f (active_indices cls n) = flat_map f (cells_of st cls n).
Proof.
  intros N H. unfold active_indices, cells_of. rewrite !flat_filter; [reflexivity| |].
  - intros i E. apply H. intros E'. rewrite E' in E. destruct st; discriminate.
  - intros i E. apply H. intros E'. rewrite E' in E. destruct st; [discriminate|congruence|discriminate].
Qed.

(** *** The elements of the whole computation *)
Lemma ok_inv {A} (a b : A) : Ok a = Ok b -> a = b.
Proof. intros H. injection H as H. exact H. Qed.
Lemma flat_single {A B} (f : A -> list B) (g : A -> B) l : (forall a, In a l -> f a = [g a]) -> flat_map f l = map g l.
Proof. induction l as [|a l IH]; intros H; [reflexivity|]. cbn [flat_map map]. rewrite (H a (or_introl eq_refl)), IH by (intros b I; apply H; right; exact I). reflexivity. Qed.
Lemma cells_in_state st cls n i : In i (cells_of st cls n) <-> (i < n)%nat /\ cls i = st.
Proof. unfold cells_of. rewrite filter_In, in_seq. destruct (cls i), st; cbn [state_eqb]; split; intros [H1 H2]; split; try lia; try discriminate; reflexivity. Qed.
Lemma cells_nodup st cls n : NoDup (cells_of st cls n).
Proof. apply NoDup_filter, seq_NoDup. Qed.
Lemma full_cells cls n : List.filter (full_cell cls n) (seq 0 n) = cells_of Inside cls n.
Proof.
  unfold cells_of. apply filter_ext_in. intros i I. apply in_seq in I. unfold full_cell. destruct (Nat.ltb_spec i n) as [H | H]; [reflexivity|lia].
Qed.

(** what the elements of the cells inside are given *)
Definition full_points (se : settings) (gi : indexer) (cls : nat -> istate) (pts : nat -> list ipoint) : Prop :=
  match se_method se with
  | UseGauss m => forall i, In i (cells_of Inside cls (num_elements (gi_grid gi))) -> assemble_ips (box_uvw gi i) (se_order se) m = Some (pts i)
  | UseGgq m => exists boxes L, assemble_boxes (gi_grid gi) (full_cell cls (num_elements (gi_grid gi))) = Some boxes /\
      all_of (map (box_assembly se gi m) boxes) = Some L /\ pts = points_for (concat L)
  end.
Definition full_elem (gi : indexer) (pts : nat -> list ipoint) (i : nat) : elem content := Elem (i + 1) (Content (bounds_at gi i) (pts i) None).

Section Run.
Variables (oc : oracles) (se : settings) (gi : indexer) (cls : nat -> istate) (src : mesh pt) (g : gquery) (order : list nat).
Let n := num_elements (gi_grid gi).
Hypothesis P : Permutation order (active_indices cls n).
Let bt i := value (trimmed_element oc se gi src g i).
Let bu i := value (full_element se gi i).
Hypothesis OK : forallb (fun i => match cls i with Trimmed => is_ok (trimmed_element oc se gi src g i) | _ => is_ok (full_element se gi i) end) order = true.

Lemma run_untrimmed : Permutation (st_untrimmed (run_loop cls bt bu order)) (flat_map (fun i => some_elem i (bu i)) (cells_of Inside cls n)).
Proof.
  destruct (run_lists cls bt bu order) as [E _]; [eapply Permutation_NoDup; [apply Permutation_sym, P|apply active_nodup]|]. rewrite E.
  eapply Permutation_trans; [apply flat_perm, P|].
  assert (X : flat_map (untrimmed_of cls bu) (active_indices cls n) = flat_map (fun i => if state_eqb (cls i) Inside then some_elem i (bu i) else []) (active_indices cls n)).
  { rewrite !flat_map_concat_map. f_equal. apply map_ext_in. intros i I. apply active_in in I. unfold untrimmed_of. destruct (cls i); cbn [state_eqb]; try reflexivity. destruct I as [_ I]. congruence. }
  rewrite X, (flat_active cls n _ Inside); [| discriminate |].
  - rewrite !flat_map_concat_map. erewrite map_ext_in; [apply Permutation_refl|]. intros i I. apply cells_in_state in I. destruct I as [_ ->]. reflexivity.
  - intros i H. destruct (cls i); cbn [state_eqb]; congruence.
Qed.
Lemma run_trimmed : Permutation (st_trimmed (run_loop cls bt bu order)) (flat_map (fun i => some_elem i (bt i)) (cells_of Trimmed cls n)).
Proof.
  destruct (run_lists cls bt bu order) as [_ E]; [eapply Permutation_NoDup; [apply Permutation_sym, P|apply active_nodup]|]. rewrite E.
  eapply Permutation_trans; [apply flat_perm, P|]. rewrite (flat_active cls n _ Trimmed); [| discriminate |].
  - rewrite !flat_map_concat_map. erewrite map_ext_in; [apply Permutation_refl|]. intros i I. apply cells_in_state in I. unfold trimmed_of. destruct I as [_ ->]. reflexivity.
  - intros i H. unfold trimmed_of. destruct (cls i); congruence.
Qed.
Lemma ok_full i : In i (cells_of Inside cls n) -> exists pts, full_element se gi i = Ok (Some (Content (bounds_at gi i) pts None)) /\
  match se_method se with UseGauss m => assemble_ips (box_uvw gi i) (se_order se) m = Some pts | UseGgq _ => pts = [] end.
Proof.
  intros I. apply cells_in_state in I. destruct I as [I E]. assert (A : In i order).
  { apply (Permutation_in _ (Permutation_sym P)). apply active_in. rewrite E. split; [exact I|discriminate]. }
  rewrite forallb_forall in OK. specialize (OK i A). rewrite E in OK. unfold full_element in *. destruct (se_method se) as [m|m].
  - destruct (assemble_ips _ _ _) as [pts|] eqn:Ep; [|discriminate]. exists pts. split; first [exact Ep | reflexivity].
  - exists []. split; reflexivity.
Qed.
Lemma full_flag : is_full (run_loop cls bt bu order) = full_cell cls n.
Proof.
  apply functional_extensionality. intros i. unfold is_full. rewrite (loop_element cls bt bu n order i FUntrimmed P). unfold full_cell. destruct (Nat.ltb_spec i n) as [L | L]; [|reflexivity].
  destruct (cls i) eqn:E; cbn [state_eqb andb]; [|reflexivity|].
  - destruct (ok_full i) as (pts & F & _); [apply cells_in_state; auto|]. unfold bu. rewrite F. reflexivity.
  - destruct (bt i); reflexivity.
Qed.

Lemma finished s : finish_elements se gi (run_loop cls bt bu order) = Ok s -> exists pts, full_points se gi cls pts /\
  Permutation (st_untrimmed s) (map (full_elem gi pts) (cells_of Inside cls n)) /\
  Permutation (st_trimmed s) (flat_map (fun i => some_elem i (bt i)) (cells_of Trimmed cls n)).
Proof.
  assert (RT := run_trimmed). assert (RU := run_untrimmed). unfold finish_elements, full_points. fold n.
  destruct (se_method se) as [m|m] eqn:Em.
  - intros H. apply ok_inv in H. subst s. exists (fun i => match bu i with Some c => co_points c | None => [] end). split; [|split; [|exact RT]].
    + intros i I. destruct (ok_full i I) as (pts & F & K). rewrite Em in K. unfold bu. rewrite F. exact K.
    + rewrite <- (flat_single (fun i => some_elem i (bu i))); [exact RU|]. intros i I. destruct (ok_full i I) as (pts & F & K). unfold bu, full_elem. rewrite F. reflexivity.
  - unfold ggq_points. rewrite full_flag. fold n. destruct (assemble_boxes _ _) as [boxes|]; [|discriminate]. cbn [ClipModel.and_then].
    destruct (all_of _) as [L|] eqn:EL; [|discriminate]. cbn [option_map]. intros H. apply ok_inv in H. subst s. exists (points_for (concat L)). split; [exists boxes, L; repeat split; exact EL|]. split; [|exact RT].
    cbn [extend_elements st_untrimmed]. eapply Permutation_trans; [apply Permutation_map, RU|].
    rewrite (flat_single _ (full_elem gi (fun _ => []))).
    + rewrite map_map. erewrite map_ext; [apply Permutation_refl|]. intros i. unfold extended, full_elem. cbn [e_id e_data co_bounds co_points co_domain app]. rewrite Nat.add_sub. reflexivity.
    + intros i I. destruct (ok_full i I) as (pts & F & K). rewrite Em in K. unfold bu, full_elem. rewrite F, K. reflexivity.
Qed.
End Run.

(** *** The volume of the full elements *)
Lemma rtol_range : 0 < rtol < / 10.
Proof. unfold rtol. split; [apply Rinv_0_lt_compat, pow_lt; lra|]. apply Rinv_lt_contravar; [apply Rmult_lt_0_compat; [lra|apply pow_lt; lra]|]. assert (1 < 10 ^ 13) by (apply Rlt_pow_R1; [lra|lia]). change 14%nat with (S 13). cbn [pow]. lra. Qed.
Lemma three_factors a b c : Rabs (a - 1) <= rtol -> Rabs (b - 1) <= rtol -> Rabs (c - 1) <= rtol -> Rabs (a * b * c - 1) <= 4 * rtol.
Proof.
  assert (T := rtol_range). set (t := rtol) in *. clearbody t. intros A B C.
  replace (a * b * c - 1) with ((a - 1) + (b - 1) + (c - 1) + (a - 1) * (b - 1) + (a - 1) * (c - 1) + (b - 1) * (c - 1) + (a - 1) * (b - 1) * (c - 1)) by ring.
  set (x := a - 1) in *. set (y := b - 1) in *. set (z := c - 1) in *. clearbody x y z. clear a b c.
  assert (X : Rabs (x * y) <= t * t) by (rewrite Rabs_mult; apply Rmult_le_compat; auto using Rabs_pos).
  assert (Y : Rabs (x * z) <= t * t) by (rewrite Rabs_mult; apply Rmult_le_compat; auto using Rabs_pos).
  assert (Z : Rabs (y * z) <= t * t) by (rewrite Rabs_mult; apply Rmult_le_compat; auto using Rabs_pos).
  assert (W : Rabs (x * y * z) <= t * t * t) by (rewrite Rabs_mult; apply Rmult_le_compat; auto using Rabs_pos).
  assert (t * t <= t * / 10) by (apply Rmult_le_compat_l; lra). assert (t * t * t <= t * / 10 * / 10) by (apply Rmult_le_compat; try lra; apply Rmult_le_pos; lra).
  assert (U : forall u e, Rabs u <= e -> - e <= u <= e) by (intros u e H'; split; [assert (K := Rle_abs (- u)); rewrite Rabs_Ropp in K; lra|assert (K := Rle_abs u); lra]).
  apply U in A. apply U in B. apply U in C. apply U in X. apply U in Y. apply U in Z. apply U in W. apply Rabs_le. lra.
Qed.
Lemma Q2R_wsum l : rsum (map snd (real_rule l)) = Q2R (wsum l).
Proof. induction l as [|q l IH]; unfold wsum in *; cbn [fold_right]; [unfold rsum; cbn; unfold Q2R; cbn; lra|]. rewrite Q2R_plus, <- IH. unfold real_rule. cbn [map snd]. unfold rsum. cbn [fold_right]. reflexivity. Qed.
Lemma rule_sum se m s a r : (2 <= order_at se a <= 4)%nat -> (0 < c_at a s)%nat -> box_rule se m s a = Some r -> Rabs (rsum (map snd r) - 1) <= rtol.
Proof.
  unfold box_rule. intros D E H. destruct (C18_ggq_rules_well_formed (order_at se a) (c_at a s) m D E) as (l & El & K). rewrite El in H. cbn [option_map] in H.
  injection H as <-. rewrite Q2R_wsum. assert (X := ro_sum _ _ K). apply Qabs_Qle_condition in X. destruct X as [X1 X2]. apply Qle_Rle in X1. apply Qle_Rle in X2.
  rewrite Q2R_opp in X1. rewrite Q2R_minus in X1, X2. assert (E1 : Q2R 1 = 1) by (unfold Q2R; cbn [Qnum Qden]; field). rewrite E1 in X1, X2.
  assert (T : Q2R Ggq1dSpec.tol = rtol). { unfold Ggq1dSpec.tol, rtol, Q2R. cbn [Qnum Qden]. rewrite Rmult_1_l. f_equal. rewrite (pow_IZR 10 14). reflexivity. }
  rewrite T in X1, X2. apply Rabs_le. lra.
Qed.
Lemma sum_const {A} c (l : list A) : sum (fun _ => c) l = INR (length l) * c.
Proof. induction l as [|a l IH]; cbn [sum length]; [cbn [INR]; ring|]. rewrite IH, S_INR. ring. Qed.
Lemma cell_volume_delta gi i : grid_ok (gi_grid gi) -> box_ok (gi_uvw gi) -> gi_bspline gi = true ->
  box_volume (box_uvw gi i) = delta (gi_grid gi) (gi_uvw gi) AX * delta (gi_grid gi) (gi_uvw gi) AY * delta (gi_grid gi) (gi_uvw gi) AZ.
Proof. intros Hg Hb Hs. unfold box_uvw. rewrite Hs. unfold box_volume.
  assert (A := fun a => cell_lower (gi_grid gi) (gi_uvw gi) (mat_of (gi_grid gi) i) a). assert (B := fun a => cell_upper (gi_grid gi) (gi_uvw gi) (mat_of (gi_grid gi) i) a).
  assert (A1 := A AX). assert (A2 := A AY). assert (A3 := A AZ). assert (B1 := B AX). assert (B2 := B AY). assert (B3 := B AZ). cbn [at_] in *. rewrite A1, A2, A3, B1, B2, B3. ring. Qed.
Lemma cuboid_volume gi l s : grid_ok (gi_grid gi) -> box_ok (gi_uvw gi) -> gi_bspline gi = true -> is_cuboid (gi_grid gi) l s ->
  axis_volume (bounds_of (box_uvw gi) l) = sum (fun i => box_volume (box_uvw gi i)) l.
Proof.
  intros Hg Hb Hs (Hn & HN & S1 & S2 & S3 & lo & L1 & L2 & L3 & Hl).
  assert (B := bb_bounds gi Hg Hb Hs l s lo Hn HN (conj S1 (conj S2 S3)) (conj L1 (conj L2 L3)) Hl).
  assert (P := l_perm gi Hg l s lo Hn HN ltac:(auto) ltac:(auto) Hl). apply Permutation_length in P. rewrite map_length, cells_in_length in P.
  erewrite sum_ext; [|intros i _; apply (cell_volume_delta gi i Hg Hb Hs)]. rewrite sum_const, P, !mult_INR. unfold axis_volume.
  destruct (B AX) as [X1 X2], (B AY) as [Y1 Y2], (B AZ) as [Z1 Z2]. cbn [at_] in X1, X2, Y1, Y2, Z1, Z2. rewrite X1, X2, Y1, Y2, Z1, Z2. cbn [c_at]. rewrite !plus_INR. ring.
Qed.
Lemma box_weights se gi m l s L : grid_ok (gi_grid gi) -> box_ok (gi_uvw gi) -> gi_bspline gi = true -> is_cuboid (gi_grid gi) l s -> (forall a, (2 <= order_at se a <= 4)%nat) ->
  rule_fits (bounds_of (box_uvw gi) l) (box_rules se m s) -> box_assembly se gi m (l, s) = Some L ->
  map fst L = l /\ Rabs (sum (fun q => sum ip_weight (snd q)) L - sum (fun i => box_volume (box_uvw gi i)) l) <= 4 * rtol * sum (fun i => box_volume (box_uvw gi i)) l.
Proof.
  intros Hg Hb Hs Hc Ho Hr H. unfold box_assembly in H. cbn [fst snd] in H.
  destruct (box_rule se m s AX) as [u|] eqn:Eu; [|discriminate]. destruct (box_rule se m s AY) as [v|] eqn:Ev; [|discriminate]. destruct (box_rule se m s AZ) as [w|] eqn:Ew; [|discriminate].
  set (r := fun a : axis => match a with AX => u | AY => v | AZ => w end) in H. assert (ER : forall a, box_rules se m s a = r a) by (intros []; unfold box_rules; rewrite ?Eu, ?Ev, ?Ew; reflexivity).
  injection H as <-. split; [unfold box_points; rewrite map_map; apply map_id|].
  assert (Hr' : rule_fits (bounds_of (box_uvw gi) l) r) by (intros a q I; apply Hr; rewrite ER; exact I).
  assert (T := total_weight gi l s r Hg Hb Hs Hc Hr'). rewrite (cuboid_volume gi l s Hg Hb Hs Hc) in T.
  assert (EL : sum (fun q => sum ip_weight (snd q)) (box_points (box_uvw gi) l r) = rsum (map ip_weight (concat (map snd (box_points (box_uvw gi) l r))))).
  { rewrite rsum_sum. generalize (box_points (box_uvw gi) l r). intros L. induction L as [|q L IH]; [reflexivity|]. cbn [sum map concat]. rewrite sum_app, IH. reflexivity. }
  rewrite EL, T. set (V := sum (fun i => box_volume (box_uvw gi i)) l).
  destruct Hc as (_ & _ & S1 & S2 & S3 & _).
  assert (F := three_factors _ _ _ (rule_sum se m s AX u (Ho AX) S1 Eu) (rule_sum se m s AY v (Ho AY) S2 Ev) (rule_sum se m s AZ w (Ho AZ) S3 Ew)).
  assert (V0 : 0 <= V).
  { unfold V. assert (K : forall i, 0 <= box_volume (box_uvw gi i)). { intros i. apply Rlt_le, box_volume_pos. unfold box_uvw. rewrite Hs. apply cell_box_ok; assumption. }
    clear - K. induction l as [|i l IH]; cbn [sum]; [lra|]. specialize (K i). lra. }
  cbn [r]. rewrite <- (Rmult_1_r V) at 2. rewrite <- Rmult_minus_distr_l, Rabs_mult, (Rabs_right V) by lra. rewrite (Rmult_comm V). apply Rmult_le_compat_r; assumption.
Qed.
Lemma sum_points_for F L : NoDup F -> (forall q, In q L -> In (fst q) F) -> sum (fun i => sum ip_weight (points_for L i)) F = sum (fun q => sum ip_weight (snd q)) L.
Proof.
  intros N. induction L as [|q L IH]; intros H; [induction F as [|i F IH]; [reflexivity|]; cbn [sum]; inversion N; subst; rewrite IH; [cbn; ring|assumption|intros q []]|].
  cbn [sum]. rewrite <- (IH (fun q I => H q (or_intror I))). specialize (H q (or_introl eq_refl)).
  assert (E : forall i, sum ip_weight (points_for (q :: L) i) = (if (fst q =? i)%nat then sum ip_weight (snd q) else 0) + sum ip_weight (points_for L i)).
  { intros i. unfold points_for. cbn [flat_map]. rewrite sum_app. destruct (fst q =? i)%nat; reflexivity. }
  erewrite sum_ext; [|intros i _; apply E]. rewrite (sum_plus (fun i => if (fst q =? i)%nat then sum ip_weight (snd q) else 0)). f_equal. clear IH E. induction F as [|i F IH]; [destruct H|]. apply NoDup_cons_iff in N. destruct N as [Ni N]. cbn [sum].
  destruct (Nat.eqb_spec (fst q) i) as [E | E].
  - rewrite (sum_ext (fun i0 => if (fst q =? i0)%nat then sum ip_weight (snd q) else 0) (fun _ => 0)); [rewrite sum_const; ring|]. intros j I. destruct (Nat.eqb_spec (fst q) j) as [E' | E']; [congruence|reflexivity].
  - rewrite IH; [ring|exact N|]. destruct H as [H | H]; [congruence|exact H].
Qed.
Lemma boxes_weights se gi m : grid_ok (gi_grid gi) -> box_ok (gi_uvw gi) -> gi_bspline gi = true -> (forall a, (2 <= order_at se a <= 4)%nat) -> forall boxes Ls,
  (forall l s, In (l, s) boxes -> is_cuboid (gi_grid gi) l s /\ rule_fits (bounds_of (box_uvw gi) l) (box_rules se m s)) ->
  map (box_assembly se gi m) boxes = map Some Ls ->
  map fst (concat Ls) = concat (map fst boxes) /\
  Rabs (sum (fun q => sum ip_weight (snd q)) (concat Ls) - sum (fun i => box_volume (box_uvw gi i)) (concat (map fst boxes))) <= 4 * rtol * sum (fun i => box_volume (box_uvw gi i)) (concat (map fst boxes)).
Proof.
  intros Hg Hb Hs Ho boxes. induction boxes as [|[l s] boxes IH]; intros [|L Ls] H E; cbn [map] in E; try discriminate.
  - cbn [concat map sum]. split; [reflexivity|]. rewrite Rminus_0_r, Rabs_R0. lra.
  - injection E as E1 E2. destruct (IH Ls (fun l s I => H l s (or_intror I)) E2) as [A B]. destruct (H l s (or_introl eq_refl)) as [Hc Hr].
    destruct (box_weights se gi m l s L Hg Hb Hs Hc Ho Hr E1) as [C D]. cbn [concat map fst]. rewrite map_app, C, A. split; [reflexivity|]. rewrite !sum_app.
    match goal with |- Rabs (?a + ?b - (?c + ?d)) <= _ => replace (a + b - (c + d)) with ((a - c) + (b - d)) by ring end.
    eapply Rle_trans; [apply Rabs_triang|]. lra.
Qed.
Lemma bounds_at_ok gi i : grid_ok (gi_grid gi) -> box_ok (gi_xyz gi) -> box_ok (gi_uvw gi) -> bounds_ok (bounds_at gi i).
Proof.
  intros Hg Hx Hu. split; cbn [bounds_at eb_global eb_param]; [apply cell_box_ok; assumption|]. unfold box_uvw. destruct (gi_bspline gi); [apply cell_box_ok; assumption|assumption].
Qed.
Lemma sum_abs {A} (f g e : A -> R) l : (forall a, In a l -> Rabs (f a - g a) <= e a) -> Rabs (sum f l - sum g l) <= sum e l.
Proof.
  induction l as [|a l IH]; intros H; cbn [sum]; [rewrite Rminus_0_r, Rabs_R0; lra|]. specialize (IH (fun a I => H a (or_intror I))). assert (X := H a (or_introl eq_refl)).
  replace (f a + sum f l - (g a + sum g l)) with ((f a - g a) + (sum f l - sum g l)) by ring. eapply Rle_trans; [apply Rabs_triang|]. lra.
Qed.
Lemma full_volume se gi cls pts : grid_ok (gi_grid gi) -> box_ok (gi_xyz gi) -> box_ok (gi_uvw gi) -> ggq_guard se gi cls -> full_points se gi cls pts ->
  let F := cells_of Inside cls (num_elements (gi_grid gi)) in
  Rabs (sum (fun i => det_j (bounds_at gi i) * sum ip_weight (pts i)) F - sum (fun i => box_volume (box_xyz gi i)) F) <= 4 * rtol * sum (fun i => box_volume (box_xyz gi i)) F.
Proof.
  intros Hg Hx Hu G P F. unfold ggq_guard, full_points in *. destruct (se_method se) as [m|m].
  - fold F in P. rewrite <- sum_scale. apply sum_abs. intros i I. specialize (P i I). destruct (se_order se) as [[ou ov] ow].
    assert (K := gauss_volume (bounds_at gi i) ou ov ow m (pts i) (bounds_at_ok gi i Hg Hx Hu) P). cbn [bounds_at eb_global] in K. rewrite rsum_sum in K.
    rewrite <- sum_scale. erewrite sum_ext; [exact K|]. intros q _. cbn [bounds_at]. ring.
  - destruct G as (Hs & Ho & Hw & Hr). destruct P as (boxes & L & E1 & E2 & ->). apply all_of_some in E2.
    destruct (boxes_cuboids _ _ Hg Hw) as (boxes' & E1' & Hc). rewrite E1 in E1'. injection E1' as <-.
    destruct (boxes_partition (gi_grid gi) (full_cell cls (num_elements (gi_grid gi))) Hg) as (boxes' & E1' & Pm). rewrite E1 in E1'. injection E1' as <-.
    rewrite full_cells in Pm. fold F in Pm.
    destruct (boxes_weights se gi m Hg Hu Hs Ho boxes L (fun l s I => conj (Hc l s I) (Hr boxes l s E1 I)) E2) as [A B].
    rewrite (sum_perm _ _ _ Pm) in B. rewrite <- (sum_points_for F) in B; [| apply cells_nodup |].
    2:{ intros q I. apply (Permutation_in _ Pm). rewrite <- A. apply in_map. exact I. }
    set (J := box_volume (gi_xyz gi) / box_volume (gi_uvw gi)).
    assert (Vx := box_volume_pos _ Hx). assert (Vu := box_volume_pos _ Hu). assert (J0 : 0 < J) by (apply Rdiv_lt_0_compat; lra).
    assert (Nn : 0 < INR (num_elements (gi_grid gi))). { apply lt_0_INR. destruct Hg as (? & ? & ?). unfold num_elements. nia. }
    assert (C : forall i, box_volume (box_xyz gi i) = J * box_volume (box_uvw gi i)).
    { intros i. assert (C1 := cell_volume (gi_grid gi) (gi_xyz gi) (mat_of (gi_grid gi) i) Hg Hx). assert (C2 := cell_volume (gi_grid gi) (gi_uvw gi) (mat_of (gi_grid gi) i) Hg Hu).
      unfold box_xyz, box_uvw. rewrite Hs. unfold J. rewrite <- C1, <- C2.
      assert (0 < box_volume (GridGeoModel.cell_box (gi_grid gi) (gi_uvw gi) (mat_of (gi_grid gi) i))) by (apply box_volume_pos, cell_box_ok; assumption). field. split; lra. }
    assert (D : forall i, det_j (bounds_at gi i) = J).
    { intros i. rewrite (det_j_eq _ (bounds_at_ok gi i Hg Hx Hu)). cbn [bounds_at eb_global eb_param]. rewrite C.
      assert (0 < box_volume (box_uvw gi i)). { apply box_volume_pos. unfold box_uvw. rewrite Hs. apply cell_box_ok; assumption. } field. lra. }
    rewrite (sum_ext _ (fun i => J * sum ip_weight (points_for (concat L) i))) by (intros i _; rewrite D; reflexivity).
    rewrite (sum_ext (fun i => box_volume (box_xyz gi i)) (fun i => J * box_volume (box_uvw gi i))) by (intros i _; apply C).
    rewrite !sum_scale, <- Rmult_minus_distr_l, Rabs_mult, (Rabs_right J) by lra. replace (4 * rtol * (J * sum (fun i => box_volume (box_uvw gi i)) F)) with (J * (4 * rtol * sum (fun i => box_volume (box_uvw gi i)) F)) by ring.
    apply Rmult_le_compat_l; [lra|exact B].
Qed.

(** *** The whole computation *)
Lemma trimmed_ok oc se gi src g i c : trimmed_element oc se gi src g i = Ok (Some c) -> co_bounds c = bounds_at gi i /\ exists d, co_domain c = Some d /\ fit_domain oc se (bounds_at gi i) d = Ok (Some (co_points c)).
Proof.
  unfold trimmed_element. destruct (trimmed_domain _ _ _ _ _ _ _ _ _ _ _ _) as [[d|]| |]; try discriminate. destruct (fit_domain oc se (bounds_at gi i) d) as [[pts|]| |] eqn:F; try discriminate.
  intros H. apply ok_inv in H. injection H as <-. cbn [co_bounds co_domain co_points]. split; [reflexivity|]. exists d. split; [reflexivity|exact F].
Qed.
Lemma computed oc se gi cls junk src chunks order inf s : let n := num_elements (gi_grid gi) in
  (N.of_nat (length (active_indices cls n)) < 2 ^ 31)%N -> Permutation order (iterations gi cls) ->
  compute_volume oc se gi cls junk src chunks order = Ok (inf, s) ->
  exists vol qual tris g pts, mesh_volume_omp chunks src = Some vol /\ estimate_quality src = Some qual /\ visit src = Some tris /\ make_query junk tris true = Some g /\
    inf = make_info gi vol qual s /\ full_points se gi cls pts /\
    Permutation (st_untrimmed s) (map (full_elem gi pts) (cells_of Inside cls n)) /\
    Permutation (st_trimmed s) (flat_map (fun i => some_elem i (value (trimmed_element oc se gi src g i))) (cells_of Trimmed cls n)) /\
    forall i, In i (cells_of Trimmed cls n) -> is_ok (trimmed_element oc se gi src g i) = true.
Proof.
  intros n A P H. rewrite (iterations_all gi cls A) in P. fold n in P. unfold compute_volume in H. destruct (mesh_volume_omp chunks src) as [vol|]; [|discriminate]. destruct (estimate_quality src) as [qual|]; [|discriminate].
  destruct (visit src) as [tris|]; [|discriminate]. cbn [ClipModel.and_then] in H. destruct (make_query junk tris true) as [g|] eqn:Eg; [|discriminate]. unfold create_elements in H.
  destruct (forallb _ order) eqn:OK; [|discriminate]. destruct (finish_elements se gi _) as [s'| |] eqn:F; try discriminate. apply ok_inv in H. injection H as <- <-.
  destruct (finished oc se gi cls src g order P OK s' F) as (pts & F1 & F2 & F3). exists vol, qual, tris, g, pts. do 3 (split; [reflexivity|]). split; [exact Eg|]. split; [reflexivity|]. split; [exact F1|]. split; [exact F2|]. split; [exact F3|].
  intros i I. apply cells_in_state in I. destruct I as [I E]. rewrite forallb_forall in OK. specialize (OK i). rewrite E in OK. apply OK.
  apply (Permutation_in _ (Permutation_sym P)), active_in. rewrite E. split; [exact I|discriminate].
Qed.
Definition contribution (c : content) : R := det_j (co_bounds c) * sum ip_weight (co_points c).
Lemma represented_sum s : represented_volume (quad_store s) = sum (fun e => contribution (e_data e)) (st_untrimmed s) + sum (fun e => contribution (e_data e)) (st_trimmed s).
Proof.
  unfold represented_volume.
  rewrite (fold_sum (fun te : bool * elem quad_data => q_detj (e_data (snd te)) * sum_weights (q_weights (e_data (snd te))))), Rplus_0_l. unfold get_elements, quad_store. cbn [st_untrimmed st_trimmed]. rewrite sum_app, !sum_map.
  assert (E : forall l : list (elem content), sum (fun e => q_detj (e_data (quad_of e)) * sum_weights (q_weights (e_data (quad_of e)))) l = sum (fun e => contribution (e_data e)) l).
  { intros l. apply sum_ext. intros e _. unfold quad_of, contribution, sum_weights. cbn [e_data q_detj q_weights]. f_equal.
    change Rplus with (fun acc x : R => acc + (fun y => y) x). rewrite (fold_sum (fun y : R => y)), Rplus_0_l, sum_map. reflexivity. }
  cbn [snd]. rewrite <- !E. reflexivity.
Qed.
Lemma trimmed_volumes oc se gi src g cls : grid_ok (gi_grid gi) -> box_ok (gi_xyz gi) -> box_ok (gi_uvw gi) -> permutes (or_sort oc) -> orders_ok (se_order se) -> mind < se_residual se -> se_alpha se = None ->
  forall l : list (elem content), (forall e, In e l -> solvable oc (se_order se) (e_data e)) ->
  (forall e, In e l -> exists i, In i (cells_of Trimmed cls (num_elements (gi_grid gi))) /\ trimmed_element oc se gi src g i = Ok (Some (e_data e))) ->
  Rabs (sum (fun e => contribution (e_data e)) l - sum (fun e => signed_volume (element_surface (e_data e))) l) <= sum (fun e => trimmed_error (se_order se) (e_data e)) l.
Proof.
  intros Hg Hx Hu Hp Ho Hm Ha l Sv H. apply sum_abs. intros e I. specialize (Sv e I). destruct (H e I) as (i & _ & T). apply trimmed_ok in T. destruct (e_data e) as [b pts dom].
  cbn [co_bounds co_domain co_points] in T. destruct T as (-> & d & -> & F). unfold contribution, element_surface. cbn [co_bounds co_domain co_points].
  apply (fitted_volume oc se); auto. apply bounds_at_ok; assumption.
Qed.
Lemma in_flat_some {A} (f : nat -> option A) e l : In e (flat_map (fun i => some_elem i (f i)) l) <-> exists i, In i l /\ f i = Some (e_data e) /\ e_id e = (i + 1)%nat.
Proof.
  rewrite in_flat_map. split.
  - intros (i & I & H). exists i. split; [exact I|]. unfold some_elem in H. destruct (f i) as [a|]; [|destruct H]. destruct H as [<- | []]. split; reflexivity.
  - intros (i & I & E & J). exists i. split; [exact I|]. rewrite E. left. rewrite <- J. destruct e; reflexivity.
Qed.
Lemma value_some {A} (r : res (option A)) a : value r = Some a <-> r = Ok (Some a).
Proof. destruct r as [x| |]; cbn [value]; split; intros H; try discriminate; [rewrite H; reflexivity|apply ok_inv in H; exact H]. Qed.

Lemma volume_bound oc se gi cls junk src chunks order inf s : let n := num_elements (gi_grid gi) in
  grid_ok (gi_grid gi) -> box_ok (gi_xyz gi) -> box_ok (gi_uvw gi) -> permutes (or_sort oc) -> orders_ok (se_order se) -> mind < se_residual se -> se_alpha se = None -> ggq_guard se gi cls ->
  (N.of_nat (length (active_indices cls n)) < 2 ^ 31)%N -> Permutation order (iterations gi cls) ->
  compute_volume oc se gi cls junk src chunks order = Ok (inf, s) -> (forall e, In e (st_trimmed s) -> solvable oc (se_order se) (e_data e)) ->
  let V := sum (fun i => box_volume (box_xyz gi i)) (cells_of Inside cls n) in
  Rabs (in_represented inf - (V + sum (fun e => signed_volume (element_surface (e_data e))) (st_trimmed s))) <= 4 * rtol * V + sum (fun e => trimmed_error (se_order se) (e_data e)) (st_trimmed s).
Proof.
  intros n Hg Hx Hu Hp Ho Hm Ha G A P H Sv V. destruct (computed oc se gi cls junk src chunks order inf s A P H) as (vol & qual & tris & g & pts & _ & _ & _ & _ & -> & Fp & PU & PT & _). fold n in PU, PT.
  cbn [make_info in_represented]. rewrite represented_sum.
  assert (B1 := full_volume se gi cls pts Hg Hx Hu G Fp). cbv zeta in B1. fold n in B1. fold V in B1.
  assert (E1 : sum (fun e => contribution (e_data e)) (st_untrimmed s) = sum (fun i => det_j (bounds_at gi i) * sum ip_weight (pts i)) (cells_of Inside cls n)).
  { rewrite (sum_perm _ _ _ PU), sum_map. reflexivity. }
  rewrite <- E1 in B1.
  assert (B2 := trimmed_volumes oc se gi src g cls Hg Hx Hu Hp Ho Hm Ha (st_trimmed s) Sv). 
  assert (K : forall e, In e (st_trimmed s) -> exists i, In i (cells_of Trimmed cls (num_elements (gi_grid gi))) /\ trimmed_element oc se gi src g i = Ok (Some (e_data e))).
  { intros e I. apply (Permutation_in _ PT), in_flat_some in I. destruct I as (i & I & E & _). exists i. split; [exact I|]. apply value_some. exact E. }
  specialize (B2 K).
  match goal with |- Rabs (?a + ?b - (?c + ?d)) <= _ => replace (a + b - (c + d)) with ((a - c) + (b - d)) by ring end.
  eapply Rle_trans; [apply Rabs_triang|]. lra.
Qed.

(** *** Independence of the schedule *)
Definition found_map (f : elem content -> elem content) (x : found content) : found content :=
  match x with GridStoreModel.Found false e => GridStoreModel.Found false (f e) | y => y end.
Lemma get_extend L f s id : get_element f (extend_elements L s) id = found_map (extended L) (get_element f s id).
Proof.
  unfold get_element, extend_elements. cbn [st_map st_untrimmed st_trimmed]. destruct (map_find (st_map s) id) as [[t k]|]; [|reflexivity]. cbn [l_trimmed l_index].
  unfold at_index. rewrite nth_error_map. destruct f, t; cbn [negb]; try reflexivity; destruct (nth_error (st_trimmed s) k), (nth_error (st_untrimmed s) k); reflexivity.
Qed.
Definition flag_map {A B} (f g : A -> B) (x : bool * A) : bool * B := (fst x, if fst x then g (snd x) else f (snd x)).
Lemma list_extend L f s : get_elements f (extend_elements L s) = map (flag_map (extended L) (fun e => e)) (get_elements f s).
Proof. unfold get_elements, extend_elements. cbn [st_untrimmed st_trimmed]. destruct f; rewrite ?map_app, !map_map; cbn; rewrite ?map_id; reflexivity. Qed.
Lemma same_extend L s s' : same_up_to_order s s' -> same_up_to_order (extend_elements L s) (extend_elements L s').
Proof.
  intros (A & B & C & D & E). split; [intros f id; rewrite !get_extend, A; reflexivity|]. split; [intros f; rewrite !list_extend; apply Permutation_map, B|].
  unfold num_active, num_trimmed, num_untrimmed, extend_elements in *. cbn [st_untrimmed st_trimmed]. rewrite !map_length. auto.
Qed.
Lemma list_quad f s : get_elements f (quad_store s) = map (fun x => (fst x, quad_of (snd x))) (get_elements f s).
Proof. unfold get_elements, quad_store. cbn [st_untrimmed st_trimmed]. destruct f; rewrite ?map_app, !map_map; reflexivity. Qed.
Lemma same_info gi vol qual s s' : same_up_to_order s s' -> make_info gi vol qual s = make_info gi vol qual s'.
Proof.
  intros (A & B & C & D & E). assert (P : Permutation (get_elements FAll (quad_store s)) (get_elements FAll (quad_store s'))) by (rewrite !list_quad; apply Permutation_map, B).
  destruct (summary_perm _ _ P) as (X & Y & Z). unfold make_info. rewrite C, D, X, Y, Z. reflexivity.
Qed.
Lemma forallb_perm {A} (p : A -> bool) l l' : Permutation l l' -> forallb p l = forallb p l'.
Proof. induction 1; cbn [forallb]; try congruence. destruct (p x), (p y); reflexivity. Qed.
Lemma same_full {A} (s s' : store A) : same_up_to_order s s' -> is_full s = is_full s'.
Proof. intros (H & _). apply functional_extensionality. intros i. unfold is_full. rewrite H. reflexivity. Qed.
Lemma finish_same se gi s s' r : same_up_to_order s s' -> finish_elements se gi s = Ok r -> exists r', finish_elements se gi s' = Ok r' /\ same_up_to_order r r'.
Proof.
  intros S. unfold finish_elements. destruct (se_method se) as [m|m]; [intros H; apply ok_inv in H; subst r; exists s'; auto|].
  unfold ggq_points. rewrite (same_full s s' S). destruct (ClipModel.and_then _ _) as [L|]; [|discriminate]. intros H. apply ok_inv in H. subst r. eexists. split; [reflexivity|]. apply same_extend. exact S.
Qed.
Lemma schedule oc se gi cls junk src chunks chunks' order order' inf s : well_formed src -> (N.of_nat (num_triangles src) < 2 ^ 31)%N ->
  Permutation (concat chunks) (omp_indices src) -> Permutation (concat chunks') (omp_indices src) ->
  (N.of_nat (length (active_indices cls (num_elements (gi_grid gi)))) < 2 ^ 31)%N -> Permutation order (iterations gi cls) -> Permutation order' (iterations gi cls) ->
  compute_volume oc se gi cls junk src chunks order = Ok (inf, s) ->
  exists s', compute_volume oc se gi cls junk src chunks' order' = Ok (inf, s') /\ same_up_to_order s s'.
Proof.
  intros W T C C' A P P' H. assert (PA := P). assert (PA' := P'). rewrite (iterations_all gi cls A) in PA, PA'. unfold compute_volume in *.
  rewrite (proj2 (parallel_ok src chunks W T C)) in H. rewrite (proj2 (parallel_ok src chunks' W T C')). destruct (mesh_volume src) as [vol|]; [|discriminate].
  destruct (estimate_quality src) as [qual|]; [|discriminate]. destruct (ClipModel.and_then _ _) as [g|]; [|discriminate]. unfold create_elements in *.
  rewrite <- (forallb_perm _ order order' (Permutation_trans P (Permutation_sym P'))). destruct (forallb _ order); [|discriminate].
  destruct (finish_elements se gi _) as [r| |] eqn:F; try discriminate. apply ok_inv in H. injection H as <- <-.
  destruct (finish_same se gi _ _ r (loop_order_independent cls _ _ _ _ _ PA PA') F) as (r' & F' & S). rewrite F'. exists r'. split; [|exact S]. rewrite (same_info gi vol qual r r' S). reflexivity.
Qed.

(** *** Looking the elements up *)
Lemma lookup_elements oc se gi cls junk src chunks order inf s : let n := num_elements (gi_grid gi) in
  (N.of_nat (length (active_indices cls n)) < 2 ^ 31)%N -> Permutation order (iterations gi cls) ->
  compute_volume oc se gi cls junk src chunks order = Ok (inf, s) ->
  exists tris g pts, visit src = Some tris /\ make_query junk tris true = Some g /\ full_points se gi cls pts /\ forall i, get_element FAll s (i + 1) =
    if (i <? n)%nat then match cls i with
      | Inside => GridStoreModel.Found false (full_elem gi pts i)
      | Outside => NotFound
      | Trimmed => match value (trimmed_element oc se gi src g i) with Some c => GridStoreModel.Found true (Elem (i + 1) c) | None => NotFound end
      end else NotFound.
Proof.
  intros n A P H. rewrite (iterations_all gi cls A) in P. fold n in P. unfold compute_volume in H. destruct (mesh_volume_omp chunks src) as [vol|]; [|discriminate]. destruct (estimate_quality src) as [qual|]; [|discriminate].
  destruct (visit src) as [tris|]; [|discriminate]. cbn [ClipModel.and_then] in H. destruct (make_query junk tris true) as [g|] eqn:Eg; [|discriminate]. unfold create_elements in H.
  destruct (forallb _ order) eqn:OK; [|discriminate]. destruct (finish_elements se gi _) as [s'| |] eqn:F; try discriminate. apply ok_inv in H. injection H as <- <-.
  exists tris, g. unfold finish_elements, full_points in *. fold n.
  assert (FO := ok_full oc se gi cls src g order P OK). destruct (se_method se) as [m|m] eqn:Em.
  - apply ok_inv in F. subst s'. exists (fun i => match value (full_element se gi i) with Some c => co_points c | None => [] end). split; [reflexivity|]. split; [exact Eg|]. split.
    + intros i I. destruct (FO i I) as (p & Fp & K). rewrite Fp. exact K.
    + intros i. rewrite (loop_element _ _ _ n order i FAll P). destruct (Nat.ltb_spec i n) as [Hi | Hi]; [|reflexivity]. destruct (cls i) eqn:E; cbn [selected negb]; try reflexivity.
      destruct (FO i) as (p & Fp & K); [apply cells_in_state; auto|]. unfold full_elem. rewrite Fp. reflexivity.
  - unfold ggq_points in F. rewrite (full_flag oc se gi cls src g order P OK) in F. fold n in F. destruct (assemble_boxes _ _) as [boxes|]; [|discriminate]. cbn [ClipModel.and_then] in F.
    destruct (all_of _) as [L|] eqn:EL; [|discriminate]. cbn [option_map] in F. apply ok_inv in F. subst s'. exists (points_for (concat L)). split; [reflexivity|]. split; [exact Eg|]. split; [exists boxes, L; repeat split; exact EL|].
    intros i. rewrite get_extend, (loop_element _ _ _ n order i FAll P). destruct (Nat.ltb_spec i n) as [Hi | Hi]; [|reflexivity]. destruct (cls i) eqn:E; cbn [selected negb]; try reflexivity.
    + destruct (FO i) as (p & Fp & K); [apply cells_in_state; auto|]. rewrite Fp. subst p. cbn [value found_map extended e_id e_data co_bounds co_points co_domain app]. unfold extended, full_elem. cbn [e_id e_data co_bounds co_points co_domain app]. rewrite Nat.add_sub. reflexivity.
    + destruct (value _); reflexivity.
Qed.

(** *** The points *)
Lemma rule_positive se m s a r q : (2 <= order_at se a <= 4)%nat -> (0 < c_at a s)%nat -> box_rule se m s a = Some r -> In q r -> 0 < snd q.
Proof.
  unfold box_rule. intros D E H I. destruct (C18_ggq_rules_well_formed (order_at se a) (c_at a s) m D E) as (l & El & K). rewrite El in H. cbn [option_map] in H. injection H as <-.
  unfold real_rule in I. apply in_map_iff in I. destruct I as (p & <- & I). cbn [snd]. assert (X := ro_positive _ _ K). rewrite Forall_forall in X. specialize (X p I). apply Qlt_Rlt in X. replace (Q2R 0) with 0 in X by (unfold Q2R; cbn; lra). exact X.
Qed.
Lemma box_points_good se gi m l s L i p q : grid_ok (gi_grid gi) -> box_ok (gi_uvw gi) -> gi_bspline gi = true -> is_cuboid (gi_grid gi) l s -> (forall a, (2 <= order_at se a <= 4)%nat) ->
  (forall a, delta (gi_grid gi) (gi_uvw gi) a > 3 * eps3) -> rule_fits (bounds_of (box_uvw gi) l) (box_rules se m s) -> box_assembly se gi m (l, s) = Some L -> In (i, p) L -> In q p ->
  in_open (box_uvw gi i) (ip_pos q) /\ 0 < ip_weight q.
Proof.
  intros Hg Hb Hs Hc Ho Hd Hr H I Iq. unfold box_assembly in H. cbn [fst snd] in H.
  destruct (box_rule se m s AX) as [u|] eqn:Eu; [|discriminate]. destruct (box_rule se m s AY) as [v|] eqn:Ev; [|discriminate]. destruct (box_rule se m s AZ) as [w|] eqn:Ew; [|discriminate].
  set (r := fun a : axis => match a with AX => u | AY => v | AZ => w end) in H. assert (ER : forall a, box_rules se m s a = r a) by (intros []; unfold box_rules; rewrite ?Eu, ?Ev, ?Ew; reflexivity).
  injection H as <-. assert (Hr' : rule_fits (bounds_of (box_uvw gi) l) r) by (intros a t J; apply Hr; rewrite ER; exact J).
  split; [exact (inside_own gi l s r i p q Hg Hb Hs Hc Hr' Hd I Iq)|].
  destruct (distribution gi l s r Hg Hb Hs Hc Hr') as (f & P & F).
  assert (Iq' : In q (concat (map snd (box_points (box_uvw gi) l r)))) by (apply in_concat; exists p; split; [apply in_map_iff; exists (i, p); split; [reflexivity|exact I]|exact Iq]).
  apply (Permutation_in _ P), in_tensor in Iq'. destruct Iq' as (x & y & z & Ix & Iy & Iz & ->). cbn [ip_weight].
  assert (Sz : forall a, 0 < at_ a (upper (bounds_of (box_uvw gi) l)) - at_ a (lower (bounds_of (box_uvw gi) l))).
  { destruct Hc as (Hn & HN & S1 & S2 & S3 & lo & L1 & L2 & L3 & Hl). intros a.
    destruct (bb_bounds gi Hg Hb Hs l s lo Hn HN (conj S1 (conj S2 S3)) (conj L1 (conj L2 L3)) Hl a) as [B1 B2]. rewrite B1, B2, plus_INR.
    assert (0 < INR (c_at a s)) by (apply lt_0_INR; destruct a; cbn [c_at]; lia). assert (X := Hd a). assert (0 < eps3) by (unfold eps3; apply Rinv_0_lt_compat, pow_lt; lra). nra. }
  destruct Hc as (_ & _ & S1 & S2 & S3 & _).
  apply in_map_iff in Ix. destruct Ix as (x' & <- & Ix). apply in_map_iff in Iy. destruct Iy as (y' & <- & Iy). apply in_map_iff in Iz. destruct Iz as (z' & <- & Iz).
  rewrite (proj1 (F AX x' Ix)), (proj1 (F AY y' Iy)), (proj1 (F AZ z' Iz)).
  assert (X1 := rule_positive se m s AX u x' (Ho AX) S1 Eu Ix). assert (X2 := rule_positive se m s AY v y' (Ho AY) S2 Ev Iy). assert (X3 := rule_positive se m s AZ w z' (Ho AZ) S3 Ew Iz).
  repeat apply Rmult_lt_0_compat; auto.
Qed.
Lemma full_points_good se gi cls pts i q : grid_ok (gi_grid gi) -> box_ok (gi_xyz gi) -> box_ok (gi_uvw gi) -> ggq_guard se gi cls -> (forall a, delta (gi_grid gi) (gi_uvw gi) a > 3 * eps3) -> full_points se gi cls pts ->
  In i (cells_of Inside cls (num_elements (gi_grid gi))) -> In q (pts i) -> in_open (box_uvw gi i) (ip_pos q) /\ 0 < ip_weight q.
Proof.
  intros Hg Hx Hu G Hd P I Iq. unfold ggq_guard, full_points in *. destruct (se_method se) as [m|m].
  - specialize (P i I). destruct (se_order se) as [[ou ov] ow]. destruct (assemble_some _ _ _ _ _ _ P) as (u & v & w & Eu & Ev & Ew & _).
    assert (Bu : box_ok (box_uvw gi i)) by apply (bounds_at_ok gi i Hg Hx Hu).
    destruct (gauss_points (box_uvw gi i) ou ov ow m Bu) as (pts' & E & _ & K); [apply get_gauss_some; eauto..|]. rewrite E in P. injection P as P. rewrite <- P in Iq. apply K. exact Iq.
  - destruct G as (Hs & Ho & Hw & Hr). destruct P as (boxes & L & E1 & E2 & ->). apply all_of_some in E2.
    destruct (boxes_cuboids _ _ Hg Hw) as (boxes' & E1' & Hc). rewrite E1 in E1'. injection E1' as <-.
    unfold points_for in Iq. apply in_flat_map in Iq. destruct Iq as ([j p] & Ij & Iq). cbn [fst snd] in Iq. destruct (Nat.eqb_spec j i) as [-> | ?]; [|destruct Iq].
    apply in_concat in Ij. destruct Ij as (Lb & ILb & Ij). assert (IS : In (Some Lb) (map (box_assembly se gi m) boxes)) by (rewrite E2; apply in_map; exact ILb).
    apply in_map_iff in IS. destruct IS as ([l s] & Ea & Ib). exact (box_points_good se gi m l s Lb i p q Hg Hu Hs (Hc l s Ib) Ho Hd (Hr boxes l s E1 Ib) Ea Ij Iq).
Qed.
Lemma points_good oc se gi cls junk src chunks order inf s : let n := num_elements (gi_grid gi) in
  grid_ok (gi_grid gi) -> box_ok (gi_xyz gi) -> box_ok (gi_uvw gi) -> permutes (or_sort oc) -> ggq_guard se gi cls -> (forall a, delta (gi_grid gi) (gi_uvw gi) a > 3 * eps3) ->
  match se_alpha se with Some al => 0 < al | None => True end ->
  (N.of_nat (length (active_indices cls n)) < 2 ^ 31)%N -> Permutation order (iterations gi cls) ->
  compute_volume oc se gi cls junk src chunks order = Ok (inf, s) ->
  (forall e q, In e (st_untrimmed s) -> In q (co_points (e_data e)) -> 0 < ip_weight q /\ in_open (eb_param (co_bounds (e_data e))) (ip_pos q)) /\
  (forall e q, In e (st_trimmed s) -> In q (co_points (e_data e)) -> 0 < ip_weight q).
Proof.
  intros n Hg Hx Hu Hp G Hd Ha A P H. destruct (computed oc se gi cls junk src chunks order inf s A P H) as (vol & qual & tris & g & pts & _ & _ & _ & _ & _ & Fp & PU & PT & _). fold n in PU, PT. split.
  - intros e q I Iq. apply (Permutation_in _ PU), in_map_iff in I. destruct I as (i & <- & I). cbn [full_elem e_data co_points co_bounds bounds_at eb_param] in *.
    destruct (full_points_good se gi cls pts i q Hg Hx Hu G Hd Fp I Iq). split; assumption.
  - intros e q I Iq. apply (Permutation_in _ PT), in_flat_some in I. destruct I as (i & I & E & _). apply value_some, trimmed_ok in E. destruct E as (_ & d & _ & F).
    unfold fit_domain in F. destruct (domain_points d (bounds_at gi i)) as [bps|]; [|discriminate].
    destruct (weights_positive _ _ _ _ _ _ _ _ _ _ _ _ _ Hp (bounds_at_ok gi i Hg Hx Hu) F) as [W1 W2].
    destruct (se_alpha se) as [al|]; [exact (W2 al eq_refl Ha q Iq)|]. assert (X := W1 eq_refl q Iq). assert (0 < / 10 ^ 14) by (apply Rinv_0_lt_compat, pow_lt; lra). lra.
Qed.

(** *** The counts *)
Lemma counts oc se gi cls junk src chunks order inf s : let n := num_elements (gi_grid gi) in
  (N.of_nat (length (active_indices cls n)) < 2 ^ 31)%N -> Permutation order (iterations gi cls) ->
  compute_volume oc se gi cls junk src chunks order = Ok (inf, s) ->
  in_full inf = length (cells_of Inside cls n) /\ (in_trimmed inf <= length (cells_of Trimmed cls n))%nat /\ in_active inf = (in_full inf + in_trimmed inf)%nat /\
  (in_active inf + in_inactive inf)%nat = n /\ in_trimmed inf = length (st_trimmed s) /\
  in_points inf = length (flat_map (fun e => co_points (e_data e)) (st_untrimmed s ++ st_trimmed s)) /\ Some (in_volume inf) = mesh_volume_omp chunks src /\
  forall q, estimate_quality src = Some q -> in_closed inf = true <-> q < / 10 ^ 10.
Proof.
  intros n A P H. destruct (computed oc se gi cls junk src chunks order inf s A P H) as (vol & qual & tris & g & pts & E1 & E2 & _ & _ & -> & Fp & PU & PT & _). fold n in PU, PT.
  cbn [make_info in_full in_trimmed in_active in_inactive in_points in_volume in_closed]. unfold num_active, num_trimmed. apply Permutation_length in PU. rewrite map_length in PU. apply Permutation_length in PT.
  assert (LT : (length (st_trimmed s) <= length (cells_of Trimmed cls n))%nat).
  { rewrite PT. generalize (cells_of Trimmed cls n). intros l. induction l as [|i l IH]; [cbn; lia|]. cbn [flat_map length]. rewrite app_length. unfold some_elem at 1. destruct (value _); cbn [length]; lia. }
  assert (LN : (length (cells_of Inside cls n) + length (cells_of Trimmed cls n) <= n)%nat).
  { rewrite <- (seq_length n 0) at 3. unfold cells_of. generalize (seq 0 n). intros l. induction l as [|i l IH]; [cbn; lia|]. cbn [List.filter length]. destruct (cls i); cbn [state_eqb length]; lia. }
  fold n. rewrite PU. split; [lia|]. split; [exact LT|]. split; [lia|]. split; [lia|]. split; [reflexivity|]. split.
  - unfold tot_points_trimmed, tot_points_full. rewrite list_quad. unfold get_elements.
    assert (X1 : forall l, fold_left (fun acc (te : bool * elem quad_data) => if fst te then (acc + length (q_weights (e_data (snd te))))%nat else acc) l 0%nat
        = fold_left (fun acc te => (acc + (fun te : bool * elem quad_data => if fst te then length (q_weights (e_data (snd te))) else 0) te)%nat) l 0%nat) by (intros l; apply fold_left_ext; intros a [[] x]; cbn; lia).
    assert (X2 : forall l, fold_left (fun acc (te : bool * elem quad_data) => if fst te then acc else (acc + length (q_weights (e_data (snd te))))%nat) l 0%nat
        = fold_left (fun acc te => (acc + (fun te : bool * elem quad_data => if fst te then 0 else length (q_weights (e_data (snd te)))) te)%nat) l 0%nat) by (intros l; apply fold_left_ext; intros a [[] x]; cbn; lia).
    rewrite X1, X2. clear X1 X2.
    assert (G : forall {B} (f : B -> nat) l, fold_left (fun a x => (a + f x)%nat) l 0%nat = list_sum (map f l)).
    { intros B f l. induction l as [|b l IH]; [reflexivity|]. cbn [fold_left map list_sum fold_right]. rewrite fold_nat_acc, IH. reflexivity. }
    rewrite !G, !map_map, !map_app, !map_map, !list_sum_app. cbn [fst snd quad_of e_data q_weights].
    assert (Z : forall l : list (elem content), list_sum (map (fun _ => 0%nat) l) = 0%nat) by (induction l as [|e l IH]; [reflexivity|exact IH]).
    assert (S : forall l : list (elem content), list_sum (map (fun e => length (map ip_weight (co_points (e_data e)))) l) = length (flat_map (fun e => co_points (e_data e)) l)).
    { induction l as [|e l IH]; [reflexivity|]. cbn [map list_sum fold_right flat_map]. rewrite app_length, <- IH, map_length. reflexivity. }
    rewrite !Z, !S, flat_map_app, app_length. lia.
  - split; [symmetry; exact E1|]. intros q E. rewrite E2 in E. injection E as <-. apply SatMain.rltb_true.
Qed.
