(** Properties C21-C24: quadrature of trimmed elements (specification vocabulary in TrimmedQuadLemmas). *)
From Coq Require Import Arith NArith Reals List Bool Lra Lia Permutation.
From Verif Require Import Geo GridStoreModel GgqModel GgqProofs Ggq1dModel GaussModel GaussProofs GaussProps MappingModel MappingProps PolyModel PolyProps
  OctreeModel OctreeSpec OctreeProofs OctreeProps TrimmedQuadModel TrimmedQuadProofs TrimmedQuadAssemble TrimmedQuadLemmas TrimmedQuadWitness.
Import ListNotations.
Local Open Scope R_scope.

(** ** C21 *)
Theorem C21_trimmed_weights_positive : forall nnls sort inside state mind maxd cb o target bps X alpha pts,
  permutes sort -> bounds_ok cb -> build_trimmed nnls sort inside state mind maxd cb o target (Some (bps, X)) alpha = Ok (Some pts) ->
  (alpha = None -> forall q, In q pts -> / 10 ^ 14 <= ip_weight q) /\
  (forall al, alpha = Some al -> 0 < al -> forall q, In q pts -> 0 < ip_weight q).
Proof. exact weights_positive. Qed.
Print Assumptions C21_trimmed_weights_positive.

(** ** C22 *)
Theorem C22_trimmed_rule_size_and_origin : forall nnls sort inside state mind maxd cb o target bps X alpha pts,
  permutes sort -> bounds_ok cb -> box_ok X -> (let '(a, b, c) := o in a <= 9 /\ b <= 9 /\ c <= 9)%nat -> mind < target ->
  build_trimmed nnls sort inside state mind maxd cb o target (Some (bps, X)) alpha = Ok (Some pts) ->
  exists E F, pts = E ++ F /\ (length E <= moments_of o)%nat /\ (length F <= moments_of o)%nat /\ (alpha = None -> F = []) /\
    (forall q, In q E -> of_domain inside state X (to_global (ip_pos q) cb)) /\
    (forall q, In q F -> in_open (eb_global cb) (to_global (ip_pos q) cb) /\ inside (to_global (ip_pos q) cb) = false).
Proof. exact size_bounded. Qed.
Print Assumptions C22_trimmed_rule_size_and_origin.
(** with Residual = 0, which the settings accept, the bound 8 for order (1,1,1) is exceeded: 256 points *)
Theorem C22_size_bound_with_zero_residual_refuted : forall nnls sort mind maxd bps, permutes sort -> 0 < mind <= / 100 -> 0 < maxd ->
  exists pts, build_trimmed nnls sort everywhere full_state mind maxd unit_bounds (1, 1, 1)%nat 0 (Some (bps, cube 1)) None = Ok (Some pts) /\
    (moments_of (1, 1, 1)%nat < length pts)%nat.
Proof. intros nnls sort mind maxd bps H1 H2 H3. destruct (unfitted nnls sort mind maxd bps H1 H2 H3) as (pts & E & L). exists pts. split; [exact E|]. rewrite L. simpl. lia. Qed.
Print Assumptions C22_size_bound_with_zero_residual_refuted.

(** ** C23 *)
Theorem C23_assembly_terminates : forall nnls sort inside state mind maxd cb o target domain alpha,
  permutes sort -> build_trimmed nnls sort inside state mind maxd cb o target domain alpha <> OutOfFuel.
Proof. exact terminates. Qed.
Print Assumptions C23_assembly_terminates.

Lemma reported nnls sort inside state mind maxd cb o target bps X pts r : permutes sort -> mind < target ->
  assemble_ips_trimmed nnls sort inside state mind maxd cb o target bps X None = Ok (pts, r) ->
  (pts = [] /\ build_trimmed nnls sort inside state mind maxd cb o target (Some (bps, X)) None = Ok None) \/ r <= / 100.
Proof.
  intros HS Ht EA. destruct (assembled _ _ _ _ _ _ _ _ _ HS _ _ _ _ _ EA) as (E & early & EL & _ & _ & HM). subst E.
  apply (loop_good nnls sort inside state mind maxd cb o target HS X (active_param cb X) (constant_terms (eb_global cb) bps o) Ht) in EL; [|exists []; reflexivity|intros q []|intros q []|left; reflexivity].
  destruct EL as [-> |(Hr & _)]; [left|right; simpl in Hr; lra]. split; [reflexivity|]. unfold build_trimmed. rewrite EA. reflexivity.
Qed.
Theorem C23_reported_residual_or_no_element : forall nnls sort inside state mind maxd cb o target bps X pts r, permutes sort -> mind < target ->
  assemble_ips_trimmed nnls sort inside state mind maxd cb o target bps X None = Ok (pts, r) ->
  (pts = [] /\ build_trimmed nnls sort inside state mind maxd cb o target (Some (bps, X)) None = Ok None) \/ r <= / 100.
Proof. exact reported. Qed.
Print Assumptions C23_reported_residual_or_no_element.

(** the residual means what it says: up to points lighter than 1e-14, which are dropped, the rule reproduces every moment *)
Theorem C23_accepted_fit_is_accurate : forall nnls sort inside state mind maxd cb o target bps X pts,
  permutes sort -> nnls_contract nnls -> bounds_ok cb -> box_ok X -> (let '(a, b, c) := o in a <= 8 /\ b <= 8 /\ c <= 8)%nat -> mind < target ->
  (exists i j k, moment_index o i j k /\ constant_term (eb_global cb) bps (i, j, k) <> 0) ->
  build_trimmed nnls sort inside state mind maxd cb o target (Some (bps, X)) None = Ok (Some pts) ->
  exists r D, 0 <= r <= / 100 /\ (forall q, In q D -> 0 <= ip_weight q < / 10 ^ 14) /\ (length (pts ++ D) <= moments_of o)%nat /\
    forall i j k, moment_index o i j k ->
      Rabs (rsum (map (fun q => ip_weight q * det_j cb * phi (eb_global cb) i j k (to_global (ip_pos q) cb)) (pts ++ D)) - constant_term (eb_global cb) bps (i, j, k))
      <= r * sqrt (rsum (map (fun x => x * x) (map (constant_term (eb_global cb) bps) (rows o)))).
Proof. exact accurate. Qed.
Print Assumptions C23_accepted_fit_is_accurate.

(** the right-hand sides are boundary sums of vector fields whose divergence is three times the basis function *)
Lemma divergence b i j k x y z : box_ok b -> (i <= 8 /\ j <= 8 /\ k <= 8)%nat ->
  derivable_pt_lim (fun t => px (flux b (i, j, k) (Pt t y z))) x (phi b i j k (Pt x y z)) /\
  derivable_pt_lim (fun t => py (flux b (i, j, k) (Pt x t z))) y (phi b i j k (Pt x y z)) /\
  derivable_pt_lim (fun t => pz (flux b (i, j, k) (Pt x y t))) z (phi b i j k (Pt x y z)).
Proof.
  intros Hb Hk. rewrite <- (phi_shape (8, 8, 8)%nat b i j k) by (simpl; lia).
  assert (M : forall f g c d t l, derivable_pt_lim f t l -> (forall s, g s = c * f s) -> d = c * l -> derivable_pt_lim g t d).
  { intros f g c d t l Hf Hg ->. pose proof (derivable_pt_lim_scal f c t l Hf) as K. unfold mult_real_fct in K. intros eps He. destruct (K eps He) as (de & Hde). exists de. intros h H1 H2. rewrite !Hg. apply Hde; assumption. }
  pose proof (Hb AX) as H1. pose proof (Hb AY) as H2. pose proof (Hb AZ) as H3. cbn [at_] in H1, H2, H3. unfold flux, shape. cbn [px py pz].
  split; [|split].
  - eapply (M (fun t => f_x_int t i (px (lower b)) (px (upper b))) _ (f_x y j (py (lower b)) (py (upper b)) * f_x z k (pz (lower b)) (pz (upper b)))); [apply (antiderivative i (px (lower b)) (px (upper b))); lra|intros; cbv beta; ring|ring].
  - eapply (M (fun t => f_x_int t j (py (lower b)) (py (upper b))) _ (f_x x i (px (lower b)) (px (upper b)) * f_x z k (pz (lower b)) (pz (upper b)))); [apply (antiderivative j (py (lower b)) (py (upper b))); lra|intros; cbv beta; ring|ring].
  - eapply (M (fun t => f_x_int t k (pz (lower b)) (pz (upper b))) _ (f_x x i (px (lower b)) (px (upper b)) * f_x y j (py (lower b)) (py (upper b)))); [apply (antiderivative k (pz (lower b)) (pz (upper b))); lra|intros; cbv beta; ring|ring].
Qed.
Theorem C23_moment_fields_have_the_right_divergence : forall b i j k x y z, box_ok b -> (i <= 8 /\ j <= 8 /\ k <= 8)%nat ->
  derivable_pt_lim (fun t => px (flux b (i, j, k) (Pt t y z))) x (phi b i j k (Pt x y z)) /\
  derivable_pt_lim (fun t => py (flux b (i, j, k) (Pt x t z))) y (phi b i j k (Pt x y z)) /\
  derivable_pt_lim (fun t => pz (flux b (i, j, k) (Pt x y t))) z (phi b i j k (Pt x y z)).
Proof. exact divergence. Qed.
Print Assumptions C23_moment_fields_have_the_right_divergence.

(** with points in the fictitious domain a rejected fit (residual 1) still creates an element, which has no point of the domain;
    the solver of the counterexample is optimal for the right-hand side in question *)
Theorem C23_rejected_fit_with_fictitious_points_refuted : forall sort mind maxd target alpha,
  permutes sort -> mind < target -> target < / 100 -> target < maxd -> 0 < alpha ->
  nnls_contract zero_solver /\
  (forall cand x, length x = length cand -> (forall w, In w x -> 0 <= w) ->
    snd (zero_solver (map (column unit_bounds (1, 1, 1)%nat) cand) (constant_terms (cube 1) inward (1, 1, 1)%nat)) ^ 2 <=
    rsum (map (fun m => (apply_row (map (column unit_bounds (1, 1, 1)%nat) cand) x m - nth m (constant_terms (cube 1) inward (1, 1, 1)%nat) 0) ^ 2) (seq 0 8))) /\
  exists pts, assemble_ips_trimmed zero_solver sort left_half full_state mind maxd unit_bounds (1, 1, 1)%nat target inward half_box (Some alpha) = Ok (pts, 1) /\
    build_trimmed zero_solver sort left_half full_state mind maxd unit_bounds (1, 1, 1)%nat target (Some (inward, half_box)) (Some alpha) = Ok (Some pts) /\
    pts <> [] /\ forall q, In q pts -> left_half (to_global (ip_pos q) unit_bounds) = false.
Proof.
  intros sort mind maxd target alpha H1 H2 H3 H4 H5. split; [exact zero_contract|]. split; [|apply rejected; assumption].
  intros cand x HL HP. unfold zero_solver. cbn [snd]. rewrite inward_l2. pose proof (inward_optimal cand x HL HP) as K.
  replace ((/ 6) ^ 2) with (/ 6 * / 6) by ring. eapply Rle_trans; [exact K|]. right. apply rsum_ext. intros m. ring.
Qed.
Print Assumptions C23_rejected_fit_with_fictitious_points_refuted.

(** ** C24 *)
Lemma undefined_iff nnls sort mind maxd cb o target ct pts elem : permutes sort ->
  point_elimination nnls sort mind maxd cb o target ct pts elem = Undefined <-> mind < target /\ (length pts < moments_of o)%nat.
Proof.
  intros HS. destruct (elimination_spec nnls sort mind maxd cb o target HS ct pts elem) as (S1 & S2 & S3). rewrite moments_nf. split.
  - intros H. destruct (Rle_lt_dec target mind) as [K|K]; [rewrite (S1 K) in H; discriminate|]. split; [assumption|].
    destruct (le_lt_dec (number_of_functions o) (length pts)) as [L|L]; [|assumption]. destruct (S3 K L) as (out & r & rest & E & _). rewrite E in H. discriminate.
  - intros (H1 & H2). apply S2; assumption.
Qed.
Theorem C24_elimination_undefined_iff_too_few_points : forall nnls sort mind maxd cb o target ct pts elem, permutes sort ->
  point_elimination nnls sort mind maxd cb o target ct pts elem = Undefined <-> mind < target /\ (length pts < moments_of o)%nat.
Proof. exact undefined_iff. Qed.
Print Assumptions C24_elimination_undefined_iff_too_few_points.

Theorem C24_assembly_defined_with_enough_points : forall nnls sort inside state mind maxd cb o target bps X alpha,
  permutes sort -> bounds_ok cb -> box_ok X -> (let '(a, b, c) := o in a <= 9 /\ b <= 9 /\ c <= 9)%nat -> mind < target ->
  (forall h t l, h <> [] -> refinements state h (octree_new X (active_param cb X)) = Some t -> add_points inside o t [] = Some l -> l <> [] -> (moments_of o <= length l)%nat) ->
  build_trimmed nnls sort inside state mind maxd cb o target (Some (bps, X)) alpha <> Undefined.
Proof. exact defined. Qed.
Print Assumptions C24_assembly_defined_with_enough_points.

(** a domain in a corner of its bounding box of which the octree finds some points, but fewer than moments: undefined for every solver,
    sorting function, boundary and residual; the classification of boxes agrees with the point test *)
Theorem C24_memory_safety_refuted : forall nnls sort mind maxd target bps alpha, permutes sort -> mind < target -> target < maxd ->
  (forall c p, cell_ok c -> (c_k c <= 5)%nat -> corner_state (dyadic (cube 1) c) = Outside -> in_open (dyadic (cube 1) c) p -> 0 < py p -> sliver p = false) /\
  build_trimmed nnls sort sliver corner_state mind maxd unit_bounds (1, 1, 1)%nat target (Some (bps, cube 1)) alpha = Undefined.
Proof. intros nnls sort mind maxd target bps alpha H1 H2 H3. split; [exact sliver_consistent|apply too_few; assumption]. Qed.
Print Assumptions C24_memory_safety_refuted.

(** ** instance: the hypotheses of C21, C22, C23 hold for an element whose rule is one point, and those of C24 for a domain that fills its box *)
Example C21_C24_example : permutes (fun l => l) /\ nnls_contract (solver 1) /\ bounds_ok unit_bounds /\ box_ok (cube 1) /\
  (exists bps x, (exists i j k, moment_index (1, 1, 1)%nat i j k /\ constant_term (eb_global unit_bounds) bps (i, j, k) <> 0) /\
    build_trimmed (solver 1) (fun l => l) everywhere full_state 0 10 unit_bounds (1, 1, 1)%nat (/ 1000) (Some (bps, cube 1)) None = Ok (Some [IP x 1])) /\
  (forall h t l, h <> [] -> refinements full_state h (octree_new (cube 1) (active_param unit_bounds (cube 1))) = Some t -> add_points everywhere (1, 1, 1)%nat t [] = Some l -> l <> [] -> (moments_of (1, 1, 1)%nat <= length l)%nat).
Proof.
  split; [intros l; apply Permutation_refl|]. split; [apply solver_contract; lra|]. split; [exact unit_bounds_ok|]. split; [apply cube_ok; lra|]. split.
  - destruct (accepted 0 10 (/ 1000) ltac:(lra) ltac:(lra) ltac:(lra)) as (bps & x & _ & A & B). exists bps, x. split; assumption.
  - intros h t l _ HR HA _. assert (H1 : box_ok (cube 1)) by (apply cube_ok; lra). rewrite unit_active in HR.
    destruct (all_points full_state everywhere (cube 1) (cube 1) h t (1, 1, 1)%nat H1 H1 ltac:(simpl; lia) HR ltac:(reflexivity)) as (pts & A2 & L2 & _).
    rewrite HA in A2. injection A2 as <-. rewrite L2. pose proof (leaves_nonempty (o_root t)). destruct (leaves (o_root t)); [contradiction|]. simpl. lia.
Qed.
