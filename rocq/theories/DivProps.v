(** C66: the moments of trimmed elements are integrals over the enclosed region. *)
From Coq Require Import Reals QArith Qreals List Lia Lra.
From Verif Require Import Geo GgqModel MappingModel PolyModel PolyProps TrimmedQuadModel MeshModel MeshProofs MeshGeoModel MeshGeoProofs MeshBoxProofs TriIpModel TriIpProps
  SearchModel GeoQueryModel DomainModel DomainProps TrimmedQuadLemmas TrimmedProps DivSpec DivProofs DivMoment DivBox.
Import ListNotations.
Local Open Scope R_scope.

(** *** The divergence theorem, for every closed surface made of triangles and every polynomial field *)
Theorem C66_divergence_theorem : forall o l F d,
  polynomial (fun p => px (F p)) -> polynomial (fun p => py (F p)) -> polynomial (fun p => pz (F p)) -> is_divergence F d -> closed l ->
  exists v, enclosed o l d v /\ outflow l F v.
Proof. exact divergence_theorem. Qed.
Print Assumptions C66_divergence_theorem.

(** The integral over the enclosed region exists, is unique and does not depend on the apex of the cones. *)
Theorem C66_region : forall l f, closed l -> polynomial f -> exists v, forall o, enclosed o l f v /\ forall w, enclosed o l f w -> w = v.
Proof.
  intros l f C P. destruct (apex_independent l f C P) as (v & H). exists v. intros o. split; [apply H|]. intros w Hw. exact (enclosed_unique _ _ _ _ _ Hw (H o)).
Qed.
Print Assumptions C66_region.

(** For the mesh of a box it is the iterated integral over the box. *)
Lemma visited_box lo up l : visit_n (mesh_box lo up) = Some l -> l = box_tris lo up.
Proof. rewrite box_visit. intros E. apply some_inj in E. symmetry. exact E. Qed.
Theorem C66_box : forall lo up f l, box_ok (Box lo up) -> polynomial f -> visit_n (mesh_box lo up) = Some l ->
  exists v, over_box (Box lo up) f v /\ forall o, enclosed o (map fst l) f v.
Proof. intros lo up f l B P V. rewrite (visited_box _ _ _ V). exact (box_integral lo up f B P). Qed.
Print Assumptions C66_box.

(** *** The moments *)
(** The moments from the boundary points of a trimmed domain are the integrals of the products of Legendre polynomials over the
    region enclosed by its closed mesh, up to the total order 5, the degree of the rule for triangles being 6. *)
Lemma moments_ok b d i j k M l bps : box_ok (eb_global b) -> (i + j + k <= 5)%nat -> within_M M (eb_global b) ->
  visit_n (td_closed d) = Some l -> closed (map fst l) -> Forall (fun q => in_box_tri (eb_global b) (fst q) /\ no_sliver (fst q)) l ->
  trimmed_boundary_ips Global d b = Some bps ->
  exists v, (forall o, enclosed o (map fst l) (phi (eb_global b) i j k) v) /\
    Rabs (constant_term (eb_global b) bps (i, j, k) - v) <= 2 ^ (i + j + k) / 10 ^ 13 * M * sum (fun q => tri_area (fst q)) l.
Proof.
  intros B L W V C Hl E. unfold trimmed_boundary_ips in E. rewrite V in E.
  destruct (moments_error b (eb_global b) i j k M l bps (Pt 0 0 0) B L W Hl C E) as (v & Hv & He). exists v. split; [|exact He]. intros o.
  destruct (moments_error b (eb_global b) i j k M l bps o B L W Hl C E) as (w & Hw & _).
  destruct (third_poly (eb_global b) (i, j, k)) as (X & Y & Z).
  destruct (divergence_theorem o (map fst l) _ _ X Y Z (third_divergence (eb_global b) i j k B ltac:(lia)) C) as (u & U1 & U2).
  destruct (divergence_theorem (Pt 0 0 0) (map fst l) _ _ X Y Z (third_divergence (eb_global b) i j k B ltac:(lia)) C) as (u' & U1' & U2').
  rewrite (enclosed_unique _ _ _ _ _ Hv U1'), <- (outflow_unique _ _ _ _ U2 U2'). exact U1.
Qed.
Theorem C66_moments : forall b d i j k M l bps, box_ok (eb_global b) -> (i + j + k <= 5)%nat -> within_M M (eb_global b) ->
  visit_n (td_closed d) = Some l -> closed (map fst l) -> Forall (fun q => in_box_tri (eb_global b) (fst q) /\ no_sliver (fst q)) l ->
  trimmed_boundary_ips Global d b = Some bps ->
  exists v, (forall o, enclosed o (map fst l) (phi (eb_global b) i j k) v) /\
    Rabs (constant_term (eb_global b) bps (i, j, k) - v) <= 2 ^ (i + j + k) / 10 ^ 13 * M * sum (fun q => tri_area (fst q)) l.
Proof. exact moments_ok. Qed.
Print Assumptions C66_moments.

(** The first moment is the volume. *)
Lemma enclosed_volume o l : enclosed o l (fun _ => 1) (sum (fun t => 1 / 6 * cone_det o t) l).
Proof.
  exists (map (fun t => 1 / 6 * cone_det o t) l). split; [|symmetry; apply sum_id_map]. apply forall2_map. intros t. exists (fun _ => 1 / 2). split.
  - intros s. assert (H := over_triangle_mono 0 0 0). replace (1 / 2) with (dirichlet 0 0 0) by (unfold dirichlet; cbn; field). revert H. apply over_triangle_ext. intros u w. cbn [pow]. ring.
  - assert (H := newton_scal (cone_det o t * (1 / 2)) _ _ _ _ (newton_pow 2)). replace (1 / 6 * cone_det o t) with (cone_det o t * (1 / 2) * / INR 3) by (cbn; field).
    revert H. apply newton_ext. intros s. ring.
Qed.
Lemma phi_0 b p : phi b 0 0 0 p = 1.
Proof. unfold phi, legendre. cbn [legendre2 fst]. ring. Qed.
Theorem C66_volume : forall b d M l bps o, box_ok (eb_global b) -> within_M M (eb_global b) ->
  visit_n (td_closed d) = Some l -> closed (map fst l) -> Forall (fun q => in_box_tri (eb_global b) (fst q) /\ no_sliver (fst q)) l ->
  trimmed_boundary_ips Global d b = Some bps ->
  Rabs (constant_term (eb_global b) bps (0, 0, 0)%nat - sum (fun q => 1 / 6 * cone_det o (fst q)) l) <= / 10 ^ 13 * M * sum (fun q => tri_area (fst q)) l.
Proof.
  intros b d M l bps o B W V C Hl E. destruct (moments_ok b d 0 0 0 M l bps B ltac:(lia) W V C Hl E) as (v & Hv & He).
  assert (Ev : v = sum (fun q => 1 / 6 * cone_det o (fst q)) l).
  { rewrite <- (sum_map fst (fun t => 1 / 6 * cone_det o t)). apply (enclosed_unique o (map fst l) (fun _ => 1)); [|apply enclosed_volume].
    specialize (Hv o). revert Hv. apply enclosed_ext. intros p. apply phi_0. }
  rewrite <- Ev. eapply Rle_trans; [exact He|]. cbn [Nat.add]. rewrite pow_O. unfold Rdiv. rewrite Rmult_1_l. lra.
Qed.
Print Assumptions C66_volume.

(** *** Cells *)
Lemma over_box_unique b f v w : over_box b f v -> over_box b f w -> v = w.
Proof.
  intros (g & h & A & B & C) (g' & h' & A' & B' & C'). apply (newton_unique _ _ _ _ _ _) with (2 := C) (3 := C'). intros x.
  refine (newton_unique _ _ _ _ _ _ _ (B x) (B' x)). intros y. exact (newton_unique _ _ _ _ _ _ (fun _ => eq_refl) (A x y) (A' x y)).
Qed.
Lemma over_box_product b f1 f2 f3 v1 v2 v3 : newton f1 (px (lower b)) (px (upper b)) v1 -> newton f2 (py (lower b)) (py (upper b)) v2 ->
  newton f3 (pz (lower b)) (pz (upper b)) v3 -> over_box b (fun p => f1 (px p) * f2 (py p) * f3 (pz p)) (v1 * v2 * v3).
Proof.
  intros N1 N2 N3. exists (fun x => (v2 * v3) * f1 x), (fun x y => (f1 x * f2 y) * v3). split; [|split].
  - intros x y. cbn [px py pz]. apply newton_scal. exact N3.
  - intros x. replace (v2 * v3 * f1 x) with ((f1 x * v3) * v2) by ring. eapply newton_ext; [|apply newton_scal; exact N2]. intros y. cbv beta. ring.
  - replace (v1 * v2 * v3) with ((v2 * v3) * v1) by ring. apply newton_scal. exact N1.
Qed.
Lemma legendre_mean n a b : (n <= 8)%nat -> a <> b -> newton (fun x => legendre n (local a b x)) a b (if Nat.eqb n 0 then b - a else 0).
Proof.
  intros L N. destruct (orthogonal n 0 a b L ltac:(lia) N) as (F & D & E). exists F. split.
  - intros x. specialize (D x). replace (legendre n (local a b x)) with (f_x x n a b * f_x x 0 a b); [exact D|].
    rewrite (is_legendre n a b x L). cbn [f_x]. unfold local. ring.
  - rewrite E. destruct (Nat.eqb_spec n 0) as [-> | _]; [cbn [INR]; field | reflexivity].
Qed.
Lemma box_phi b i j k : box_ok b -> (i <= 8 /\ j <= 8 /\ k <= 8)%nat -> over_box b (phi b i j k) (if Nat.eqb (i + j + k) 0 then box_volume b else 0).
Proof.
  intros B (Li & Lj & Lk). assert (X := B AX). assert (Y := B AY). assert (Z := B AZ). cbn [at_] in X, Y, Z.
  assert (H := over_box_product b _ _ _ _ _ _ (legendre_mean i (px (lower b)) (px (upper b)) Li ltac:(lra)) (legendre_mean j (py (lower b)) (py (upper b)) Lj ltac:(lra)) (legendre_mean k (pz (lower b)) (pz (upper b)) Lk ltac:(lra))).
  replace (if Nat.eqb (i + j + k) 0 then box_volume b else 0) with
    ((if Nat.eqb i 0 then px (upper b) - px (lower b) else 0) * (if Nat.eqb j 0 then py (upper b) - py (lower b) else 0) * (if Nat.eqb k 0 then pz (upper b) - pz (lower b) else 0)).
  - exact H.
  - destruct i; [|cbn; ring]. destruct j; [|cbn; ring]. destruct k; [|cbn; ring]. reflexivity.
Qed.
Lemma wide_no_sliver b q : box_ok (eb_global b) -> wide Global b -> In q (box_tris (lower (eb_global b)) (upper (eb_global b))) -> no_sliver (fst q).
Proof.
  intros B W I. left. set (lo := lower (eb_global b)) in *. set (up := upper (eb_global b)) in *.
  assert (X := B AX). assert (Y := B AY). assert (Z := B AZ). cbn [at_] in X, Y, Z. fold lo up in X, Y, Z.
  destruct (W AX) as [WX _]. destruct (W AY) as [WY _]. destruct (W AZ) as [WZ _]. unfold others, MappingProps.side in WX, WY, WZ. fold lo up in WX, WY, WZ. cbn [at_] in WX, WY, WZ.
  rewrite (box_area2 lo up q I). destruct (box_normals lo up q I) as [-> | [-> | [-> | [-> | [-> | ->]]]]]; cbn [px py pz];
    rewrite ?Rabs_R0, ?Rabs_m1, ?Rabs_R1, !Rmult_0_l, ?Rmult_1_l, ?Rplus_0_l, ?Rplus_0_r, norm_scale by nra; rewrite ?norm_x, ?norm_y, ?norm_z, ?Rabs_m1, ?Rabs_R1; lra.
Qed.
(** The moments from the boundary points of a full cell: the volume, and 0 for all others. *)
Theorem C66_cell : forall b i j k M bps, box_ok (eb_global b) -> (i + j + k <= 5)%nat -> within_M M (eb_global b) ->
  wide Global b ->
  cell_boundary_ips Global b = Some bps ->
  Rabs (constant_term (eb_global b) bps (i, j, k) - (if Nat.eqb (i + j + k) 0 then box_volume (eb_global b) else 0))
    <= 2 ^ (i + j + k) / 10 ^ 13 * M * surface (eb_global b).
Proof.
  intros b i j k M bps B L W S E. unfold cell_boundary_ips in E. rewrite box_visit in E.
  set (lo := lower (eb_global b)) in *. set (up := upper (eb_global b)) in *. assert (Eb : eb_global b = Box lo up) by (destruct (eb_global b); reflexivity).
  assert (B' : box_ok (Box lo up)) by (rewrite <- Eb; exact B).
  assert (Hl : Forall (fun q => in_box_tri (eb_global b) (fst q) /\ no_sliver (fst q)) (box_tris lo up)).
  { apply Forall_forall. intros q I. split; [|apply (wide_no_sliver b q B S I)]. clear S E. assert (X := B' AX). assert (Y := B' AY). assert (Z := B' AZ). cbn [at_ lower upper] in X, Y, Z.
    rewrite Eb. unfold in_box_tri, in_closed. unfold box_tris in I.
    repeat destruct I as [<- | I]; [..|destruct I]; cbn [fst P1 P2 P3 lower upper]; split; [|split| |split| |split| |split| |split| |split| |split| |split| |split| |split| |split| |split]; intros []; cbn [at_ px py pz]; lra. }
  destruct (moments_error b (eb_global b) i j k M (box_tris lo up) bps (Pt 0 0 0) B L W Hl (box_closed lo up) E) as (v & Hv & He).
  assert (Pp : polynomial (phi (eb_global b) i j k)).
  { assert (X := poly_at AX). assert (Y := poly_at AY). assert (Z := poly_at AZ). cbn [at_] in X, Y, Z.
    eapply poly_ext; [|apply poly_mult; [apply poly_mult; [apply (poly_f _ i (px lo) (px up) X) | apply (poly_f _ j (py lo) (py up) Y)] | apply (poly_f _ k (pz lo) (pz up) Z)]].
    intros p. cbv beta. cbn [at_]. rewrite !is_legendre by lia. reflexivity. }
  destruct (box_integral lo up (phi (eb_global b) i j k) B' Pp) as (w & Hw & Hw'). rewrite <- Eb in Hw.
  rewrite (enclosed_unique _ _ _ _ _ Hv (Hw' _)) in He. rewrite (over_box_unique _ _ _ _ Hw (box_phi _ i j k B ltac:(lia))) in He.
  replace (sum (fun q => tri_area (fst q)) (box_tris lo up)) with (surface (eb_global b)) in He; [exact He|].
  destruct (box_area_volume lo up B') as (Ar & _). unfold mesh_area in Ar. rewrite (visit_fst _ _ (box_visit lo up)) in Ar. cbn [option_map] in Ar. apply some_inj in Ar.
  rewrite fold_sum, Rplus_0_l, sum_map in Ar. rewrite Ar. unfold surface, MappingProps.side. fold lo up. cbn [at_]. ring.
Qed.
Print Assumptions C66_cell.

(** *** Examples *)
(** A cube inside the unit cell as trimmed domain. *)
Definition quarter : pt := Pt (1/4) (1/4) (1/4).
Definition three_quarters : pt := Pt (3/4) (3/4) (3/4).
Lemma cube_wide b : eb_global b = Box quarter three_quarters -> wide Global b.
Proof.
  intros E a. split; [|discriminate]. rewrite E. unfold others, MappingProps.side. pose proof GeoQueryProps.zerotol_small. destruct a; cbn [at_ lower upper quarter three_quarters px py pz]; lra.
Qed.
Example C66_example : forall d, td_closed d = mesh_box quarter three_quarters ->
  exists l bps, box_ok (eb_global unit_cell) /\ (2 + 2 + 1 <= 5)%nat /\ within_M 1 (eb_global unit_cell) /\ visit_n (td_closed d) = Some l /\ closed (map fst l) /\
    Forall (fun q => in_box_tri (eb_global unit_cell) (fst q) /\ no_sliver (fst q)) l /\ trimmed_boundary_ips Global d unit_cell = Some bps /\
    length bps = 144%nat /\ sum (fun q => 1 / 6 * cone_det (Pt 0 0 0) (fst q)) l = 1 / 8.
Proof.
  intros d E. exists (box_tris quarter three_quarters). eexists. split; [intros []; cbn; lra|]. split; [lia|]. split.
  { intros a. destruct a; cbn [at_ eb_global unit_cell lower upper px py pz]; rewrite Rabs_R0, Rabs_R1; lra. }
  split; [rewrite E; apply box_visit|]. split; [apply box_closed|]. split; [|split; [|split]].
  - apply Forall_forall. intros q I. split.
    + unfold box_tris, quarter, three_quarters in I. cbn [px py pz] in I. unfold in_box_tri, in_closed.
      repeat destruct I as [<- | I]; [..|destruct I]; cbn [fst P1 P2 P3]; (split; [|split]); intros []; cbn [eb_global unit_cell lower upper at_ px py pz]; lra.
    + apply (wide_no_sliver (EB (Box quarter three_quarters) (Box quarter three_quarters)) q); [intros []; cbn; lra | apply cube_wide; reflexivity | exact I].
  - unfold trimmed_boundary_ips. rewrite E, box_visit. apply domain_ips_flat.
  - reflexivity.
  - unfold box_tris, cone_det, dot, cross, vsub, quarter, three_quarters. cbn [sum fst P1 P2 P3 px py pz]. field.
Qed.
Example C66_cell_example : box_ok (eb_global unit_cell) /\ within_M 1 (eb_global unit_cell) /\ wide Global unit_cell /\ exists bps, cell_boundary_ips Global unit_cell = Some bps.
Proof.
  split; [intros []; cbn; lra|]. split; [intros a; destruct a; cbn [at_ eb_global unit_cell lower upper px py pz]; rewrite Rabs_R0, Rabs_R1; lra|]. split.
  - intros a. split; [|discriminate]. unfold others, MappingProps.side. pose proof GeoQueryProps.zerotol_small. destruct a; cbn [at_ eb_global unit_cell lower upper px py pz]; lra.
  - unfold cell_boundary_ips. rewrite box_visit, domain_ips_flat. eexists. reflexivity.
Qed.
(** A polynomial field. *)
Example C66_field_example : let F p := Pt (px p * py p) (pz p) (px p * pz p) in let d p := py p + px p in
  polynomial (fun p => px (F p)) /\ polynomial (fun p => py (F p)) /\ polynomial (fun p => pz (F p)) /\ is_divergence F d.
Proof.
  intros F d. assert (X := poly_at AX). assert (Y := poly_at AY). assert (Z := poly_at AZ). cbn [at_] in X, Y, Z. unfold F, d. cbn [px py pz].
  split; [poly|]. split; [poly|]. split; [poly|]. intros p. exists (py p), 0, (px p). cbn [px py pz]. split; [|split; [|split; [|ring]]].
  - apply (lim_ext (fun t => py p * t)); [intros t; ring|]. assert (H := derivable_pt_lim_scal (fun t => t) (py p) (px p) 1 (derivable_pt_lim_id _)). rewrite Rmult_1_r in H. exact H.
  - apply derivable_pt_lim_const.
  - assert (H := derivable_pt_lim_scal (fun t => t) (px p) (pz p) 1 (derivable_pt_lim_id _)). rewrite Rmult_1_r in H. exact H.
Qed.

(** *** Beyond the degree of the rule *)
(** The rule for the triangles is not exact for polynomials of degree 7, which occur in the fields of the moments of total order 6
    (for example all orders 2): the integral of x^7 over the right triangle with legs 1 is 1/72, and the rule misses it by more than 10^-6. *)
Definition right_triangle : tri pt := Tri (Pt 0 0 0) (Pt 1 0 0) (Pt 0 1 0).
Lemma seventh_z : (36 * zpow (Zpos scale) 8 <=? (zsum (zterm 0 7 0) (map zpoint tri_points4) * 36 - zpow (Zpos scale) 8) * 250000)%Z = true.
Proof. vm_compute. reflexivity. Qed.
Lemma tri4_scales : forallb scales tri_points4 = true.
Proof. vm_compute. reflexivity. Qed.
Lemma zsum_real a b c l : forallb scales l = true -> IZR (zsum (zterm a b c) (map zpoint l)) = sum (real_term a b c) l * IZR (Zpos scale) ^ S (a + b + c).
Proof.
  intros S. induction l as [|q l IH]; cbn [map zsum sum]; [cbn; ring|]. cbn [forallb] in S. apply Bool.andb_true_iff in S as [S0 S].
  rewrite plus_IZR, (IH S), (zterm_real _ _ _ _ S0). ring.
Qed.
Lemma seventh : 4 / 10 ^ 6 <= sum (real_term 0 7 0) tri_points4 - 1 / 36.
Proof.
  assert (H := seventh_z). apply Z.leb_le, IZR_le in H. rewrite !mult_IZR, minus_IZR, !mult_IZR, zpow_real, (zsum_real 0 7 0 _ tri4_scales) in H.
  change (S (0 + 7 + 0)) with 8%nat in H. assert (P : 0 < IZR (Zpos scale) ^ 8) by (apply pow_lt, IZR_lt; reflexivity).
  revert H P. generalize (IZR (Zpos scale) ^ 8) (sum (real_term 0 7 0) tri_points4). intros s r H P.
  apply (Rmult_le_reg_r (s * 36 * 250000)); [lra|]. replace ((r - 1 / 36) * (s * 36 * 250000)) with ((r * s * 36 - s) * 250000) by field.
  replace (4 / 10 ^ 6 * (s * 36 * 250000)) with (36 * s) by field. exact H.
Qed.
Theorem C66_degree_refuted : exists l v, get_ips_global right_triangle 3 = Some l /\
  over_triangle (fun u w => px (position right_triangle u w) ^ 7) v /\ / 10 ^ 6 < Rabs (sum (fun q => b_weight q * px (b_point q) ^ 7) l - v).
Proof.
  exists (map (global_ip right_triangle) tri_points4), (dirichlet 0 7 0). split; [reflexivity|]. split.
  - eapply over_triangle_ext; [|apply (over_triangle_mono 0 7 0)]. intros u w. unfold position, right_triangle, vadd, vscale. cbn [P1 P2 P3 px py pz].
    replace ((1 - u - w) * 0 + u * 1 + w * 0) with u by ring. cbn [pow]. ring.
  - assert (Ar : tri_area right_triangle = 1 / 2).
    { unfold tri_area, right_triangle, cross, vsub. cbn [P1 P2 P3 px py pz].
      match goal with |- context [norm (Pt ?x ?y ?z)] => replace (Pt x y z) with (Pt 0 0 1) by (f_equal; ring) end. rewrite norm_unit_z. ring. }
    assert (E : sum (fun q => b_weight q * px (b_point q) ^ 7) (map (global_ip right_triangle) tri_points4) = 1 / 2 * sum (real_term 0 7 0) tri_points4).
    { generalize tri_points4. intros l. induction l as [|[[x y] w] l IH]; cbn [map sum]; [ring|]. rewrite IH. unfold real_term, global_ip. rewrite Ar.
      cbn [b_weight b_point bary0 bary1 bary2 weight_of right_triangle P1 P2 P3 px py pz]. unfold TriIpModel.shape. cbn [fst snd].
      replace ((1 - Q2R x - Q2R y) * 0 + Q2R x * 1 + Q2R y * 0) with (Q2R x) by ring. rewrite !pow_O. field. }
    rewrite E. replace (dirichlet 0 7 0) with (1 / 2 * (1 / 36)).
    2: { unfold dirichlet. rewrite <- !zfact_real. change (zfact 0) with 1%Z. change (zfact 7) with 5040%Z. change (zfact (0 + 7 + 0 + 2)) with 362880%Z. field. }
    rewrite <- Rmult_minus_distr_l, Rabs_mult, (Rabs_right (1 / 2)) by lra. assert (H := seventh).
    assert (P : 0 < / 10 ^ 6) by (apply Rinv_0_lt_compat, pow_lt; lra). rewrite Rabs_right by (unfold Rdiv in *; lra). unfold Rdiv in *. lra.
Qed.
Print Assumptions C66_degree_refuted.
