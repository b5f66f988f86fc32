(** Property C53: the queries of the active domain of an element. *)
From Coq Require Import Reals Lra Psatz List Bool ZArith Lia.
From Verif Require Import Geo GgqModel MappingModel MappingProps TrimmedQuadModel MeshModel MeshGeoModel MeshGeoProofs MeshBoxProofs TriIpModel TriIpProps
  StlModel SearchModel SearchProofs SearchInsert SearchQuery SearchProps GeoQueryModel SatMain GeoQueryProofs RayProofs CastProofs GeoQueryProps DomainModel.
Import ListNotations.
Local Open Scope R_scope.

(** *** Specification *)
Definition shrunk (l u : pt) (tol : R) : box := Box (Pt (px l + tol) (py l + tol) (pz l + tol)) (Pt (px u - tol) (py u - tol) (pz u - tol)).
Definition not_empty (b : box) : Prop := exists x, in_closed b x.
Definition share (a b : box) : Prop := exists x, in_closed a x /\ in_closed b x.
Definition within (a b : box) : Prop := forall x, in_closed a x -> in_closed b x.

Lemma rleb_true a b : rleb a b = true <-> a <= b.
Proof. unfold rleb. destruct (Rle_dec a b); split; intros; try lra; congruence. Qed.
Lemma closed_coords b p : in_closed b p <->
  (px (lower b) <= px p <= px (upper b)) /\ (py (lower b) <= py p <= py (upper b)) /\ (pz (lower b) <= pz p <= pz (upper b)).
Proof.
  unfold in_closed. split; [intros H; split; [exact (H AX) | split; [exact (H AY) | exact (H AZ)]] | intros (H1 & H2 & H3) a; destruct a; assumption].
Qed.

Lemma cell_point sp p b : cell_is_inside sp p b = true <-> in_closed (cell_bounds sp b) p.
Proof. unfold cell_is_inside. rewrite !andb_true_iff, !rleb_true, closed_coords. tauto. Qed.

Lemma cell_box sp l u b tol : box_ok (cell_bounds sp b) -> not_empty (shrunk l u tol) ->
  (cell_state sp l u b tol = LOutside <-> ~ share (cell_bounds sp b) (shrunk l u tol)) /\
  (cell_state sp l u b tol = LInside <-> within (shrunk l u tol) (cell_bounds sp b)) /\
  (cell_state sp l u b tol = LTrimmed <-> share (cell_bounds sp b) (shrunk l u tol) /\ ~ within (shrunk l u tol) (cell_bounds sp b)).
Proof.
  intros Hc (x & Hx). pose proof Hx as Hx'. rewrite closed_coords in Hx'. pose proof (Hc AX) as HX. pose proof (Hc AY) as HY. pose proof (Hc AZ) as HZ.
  unfold cell_state. set (c := cell_bounds sp b) in *. clearbody c. destruct c as [[lx ly lz] [ux uy uz]]. cbn [at_ lower upper px py pz shrunk] in *.
  set (LX := px l + tol) in *. set (LY := py l + tol) in *. set (LZ := pz l + tol) in *.
  set (UX := px u - tol) in *. set (UY := py u - tol) in *. set (UZ := pz u - tol) in *.
  match goal with |- context [if ?d then LOutside else _] => destruct d eqn:D end.
  - rewrite !orb_true_iff, !rltb_true in D.
    assert (N : ~ share (Box (Pt lx ly lz) (Pt ux uy uz)) (shrunk l u tol)).
    { intros (y & H1 & H2). rewrite closed_coords in H1, H2. cbn [shrunk lower upper px py pz] in H1, H2. fold LX LY LZ UX UY UZ in H2. lra. }
    assert (W : ~ within (shrunk l u tol) (Box (Pt lx ly lz) (Pt ux uy uz))) by (intros W; apply N; exists x; split; [apply W, Hx | exact Hx]).
    refine (conj (conj _ _) (conj (conj _ _) (conj _ _))); intros; try tauto; try discriminate.
  - rewrite !orb_false_iff, !rltb_false in D.
    assert (S : share (Box (Pt lx ly lz) (Pt ux uy uz)) (shrunk l u tol)).
    { exists (Pt (Rmax lx LX) (Rmax ly LY) (Rmax lz LZ)). split; apply closed_coords; cbn [shrunk lower upper px py pz]; fold LX LY LZ UX UY UZ;
        unfold Rmax; repeat destruct (Rle_dec _ _); lra. }
    match goal with |- context [if ?d then LInside else _] => destruct d eqn:I end.
    + rewrite !andb_true_iff, !rleb_true in I.
      assert (W : within (shrunk l u tol) (Box (Pt lx ly lz) (Pt ux uy uz))).
      { intros y Hy. rewrite closed_coords in *. cbn [shrunk lower upper px py pz] in *. fold LX LY LZ UX UY UZ in Hy. lra. }
      refine (conj (conj _ _) (conj (conj _ _) (conj _ _))); intros; try tauto; try discriminate.
    + assert (W : ~ within (shrunk l u tol) (Box (Pt lx ly lz) (Pt ux uy uz))).
      { intros W. apply not_true_iff_false in I. apply I. rewrite !andb_true_iff, !rleb_true.
        assert (W1 := W (Pt LX LY LZ)). assert (W2 := W (Pt UX UY UZ)). rewrite closed_coords in W1, W2. cbn [shrunk lower upper px py pz] in W1, W2.
        fold LX LY LZ UX UY UZ in W1, W2. rewrite closed_coords in W1, W2. cbn [lower upper px py pz] in W1, W2. lra. }
      refine (conj (conj _ _) (conj (conj _ _) (conj _ _))); intros; try tauto; try discriminate.
Qed.

(** *** Boundary points *)
Definition unit_normal (a : axis) (s : R) : pt := match a with AX => Pt s 0 0 | AY => Pt 0 s 0 | AZ => Pt 0 0 s end.
Definition surface (b : box) : R := let s a := side b a in 2 * (s AX * s AY + s AY * s AZ + s AX * s AZ).
Definition on_face (b : box) (p n : pt) : Prop :=
  in_closed b p /\ exists a, (at_ a p = at_ a (lower b) /\ n = unit_normal a (-1)) \/ (at_ a p = at_ a (upper b) /\ n = unit_normal a 1).

Definition local_ips (sp : space) (b : ebounds) (t : tri pt) : list bpoint :=
  map (fun q => let g := BP (b_point q) (b_weight q) (b_normal q) in match sp with Global => g | Parametric => bp_to_parametric g b end)
      (map (global_ip t) tri_points4).
Lemma domain_ips_flat sp b l : domain_ips sp l b = Some (flat_map (fun q => local_ips sp b (fst q)) l).
Proof.
  induction l as [ | [t n] l IH]; cbn [domain_ips flat_map]; [reflexivity | ]. rewrite IH. reflexivity.
Qed.
Lemma local_weights t : exists l, get_ips_global t 3 = Some l /\ l = map (global_ip t) tri_points4.
Proof. eexists. split; reflexivity. Qed.

(** The factor of the weights. *)
Definition factor (sp : space) (b : ebounds) (n : pt) : R :=
  match sp with Global => 1 | Parametric => norm (area_vector n (compute_scale (eb_global b) (eb_param b))) end.
Lemma local_weight_sum sp b t : sum bp_weight (local_ips sp b t) = factor sp b (tri_normal t) * sum b_weight (map (global_ip t) tri_points4).
Proof.
  unfold local_ips. generalize tri_points4. intros l. induction l as [ | [[x y] w] l IH]; cbn [map sum]; [destruct sp; cbn; ring | ]. rewrite IH.
  unfold factor. destruct sp; cbn [bp_weight]; [ring | ]. unfold bp_to_parametric. cbn [bp_normal bp_pos bp_weight global_ip b_normal b_weight b_point].
  unfold area_data. cbn [bp_weight]. ring.
Qed.
(** The two sides of the face across an axis. *)
Definition others (f : axis -> R) (a : axis) : R := match a with AX => f AY * f AZ | AY => f AX * f AZ | AZ => f AX * f AY end.
Lemma box_face lo up q : box_ok (Box lo up) -> In q (box_tris lo up) ->
  exists a s, ((s = -1 /\ forall v, In v [P1 (fst q); P2 (fst q); P3 (fst q)] -> at_ a v = at_ a lo) \/
               (s = 1 /\ forall v, In v [P1 (fst q); P2 (fst q); P3 (fst q)] -> at_ a v = at_ a up)) /\
    snd q = unit_normal a s /\ area2 (fst q) = vscale (others (side (Box lo up)) a) (snd q) /\
    (forall v, In v [P1 (fst q); P2 (fst q); P3 (fst q)] -> in_closed (Box lo up) v).
Proof.
  intros B I. pose proof (B AX) as X. pose proof (B AY) as Y. pose proof (B AZ) as Z. cbn [at_ lower upper] in X, Y, Z.
  pose proof (box_area2 lo up q I) as A. cbv zeta in A. unfold others, side.
  unfold box_tris in I. cbv zeta in I. cbn [In] in I.
  repeat destruct I as [<- | I]; [..|destruct I]; cbn [fst snd P1 P2 P3 px py pz] in *;
    rewrite ?Rabs_R0, ?Rabs_m1, ?Rabs_R1 in A; rewrite A;
    match goal with
    | |- context [Pt (-1) 0 0] => exists AX, (-1)
    | |- context [Pt 1 0 0] => exists AX, 1
    | |- context [Pt 0 (-1) 0] => exists AY, (-1)
    | |- context [Pt 0 1 0] => exists AY, 1
    | |- context [Pt 0 0 (-1)] => exists AZ, (-1)
    | |- context [Pt 0 0 1] => exists AZ, 1
    end; clear A;
    (split; [solve [left; split; [reflexivity | intros v [<- | [<- | [<- | []]]]; reflexivity] | right; split; [reflexivity | intros v [<- | [<- | [<- | []]]]; reflexivity]]
           | split; [reflexivity | split; [unfold vscale; cbn [at_ lower upper px py pz]; f_equal; ring | ]]]);
    intros v [<- | [<- | [<- | []]]]; apply closed_coords; cbn [lower upper px py pz]; lra.
Qed.
Lemma unit_norm a s : s = -1 \/ s = 1 -> norm (unit_normal a s) = 1.
Proof.
  intros H. destruct a; cbn [unit_normal]; rewrite ?norm_x, ?norm_y, ?norm_z; destruct H as [-> | ->]; rewrite ?Rabs_m1, ?Rabs_R1; reflexivity.
Qed.
Lemma others_pos f a : (forall c, 0 < f c) -> 0 < others f a.
Proof. intros H. destruct a; cbn; apply Rmult_lt_0_compat; apply H. Qed.

Lemma face_area lo up q a s : box_ok (Box lo up) -> s = -1 \/ s = 1 -> snd q = unit_normal a s ->
  area2 (fst q) = vscale (others (side (Box lo up)) a) (snd q) ->
  tri_area (fst q) = others (side (Box lo up)) a / 2 /\ norm (area2 (fst q)) = others (side (Box lo up)) a.
Proof.
  intros B S N A. assert (P := others_pos (side (Box lo up)) a (fun c => side_pos _ c B)).
  assert (E : norm (area2 (fst q)) = others (side (Box lo up)) a) by (rewrite A, N, norm_scale, unit_norm by (assumption || lra); ring).
  split; [ | exact E]. unfold tri_area. fold (area2 (fst q)). rewrite E. field.
Qed.
Lemma face_normal lo up q a s : box_ok (Box lo up) -> s = -1 \/ s = 1 -> snd q = unit_normal a s ->
  area2 (fst q) = vscale (others (side (Box lo up)) a) (snd q) -> zerotol < others (side (Box lo up)) a -> tri_normal (fst q) = snd q.
Proof.
  intros B S N A G. destruct (face_area lo up q a s B S N A) as (_ & E). rewrite tri_normal_eq, E. destruct (Rlt_dec _ _); [ | contradiction].
  rewrite A, vscale_vscale. assert (Z := zerotol_pos). replace (1 / others (side (Box lo up)) a * others (side (Box lo up)) a) with 1 by (field; lra).
  apply vscale_1.
Qed.

(** The products that the code compares with its tolerance before it normalises. *)
Definition scale_of (b : ebounds) (a : axis) : R := side (eb_param b) a / side (eb_global b) a.
Definition wide (sp : space) (b : ebounds) : Prop := forall a,
  zerotol < others (side (eb_global b)) a /\ (sp = Parametric -> zerotol < others (scale_of b) a).

Lemma area_vector_face b a s : bounds_ok b ->
  area_vector (unit_normal a s) (compute_scale (eb_global b) (eb_param b)) = unit_normal a (s * others (scale_of b) a).
Proof.
  intros (Hg & Hp). pose proof (scale_eq (eb_global b) (eb_param b)) as E. pose proof (E AX Hg Hp) as E1. pose proof (E AY Hg Hp) as E2.
  pose proof (E AZ Hg Hp) as E3. change (px (compute_scale (eb_global b) (eb_param b)) = scale_of b AX) in E1.
  change (py (compute_scale (eb_global b) (eb_param b)) = scale_of b AY) in E2. change (pz (compute_scale (eb_global b) (eb_param b)) = scale_of b AZ) in E3.
  unfold area_vector. rewrite E1, E2, E3. destruct a; cbn [unit_normal others px py pz]; f_equal; ring.
Qed.
Lemma scale_of_pos b a : bounds_ok b -> 0 < scale_of b a.
Proof. intros (Hg & Hp). apply Rdiv_lt_0_compat; apply side_pos; assumption. Qed.
Lemma norm_unit_scaled a s k : s = -1 \/ s = 1 -> 0 < k -> norm (unit_normal a (s * k)) = k.
Proof.
  intros S K. destruct a; cbn [unit_normal]; rewrite ?norm_x, ?norm_y, ?norm_z; rewrite Rabs_mult, (Rabs_right k) by lra;
    destruct S as [-> | ->]; rewrite ?Rabs_m1, ?Rabs_R1; ring.
Qed.
Lemma factor_face sp b a s : bounds_ok b -> s = -1 \/ s = 1 ->
  factor sp b (unit_normal a s) * others (side (eb_global b)) a = others (side (cell_bounds sp b)) a.
Proof.
  intros H S. destruct sp; cbn [factor cell_bounds]; [ring | ]. rewrite area_vector_face by assumption.
  rewrite norm_unit_scaled by (try assumption; apply others_pos; intros c; apply scale_of_pos, H).
  destruct H as (Hg & Hp). assert (P := fun c => side_pos _ c Hg). assert (PX := P AX). assert (PY := P AY). assert (PZ := P AZ).
  unfold scale_of. destruct a; cbn [others]; field; lra.
Qed.

Lemma scaled_error {A} (f S T : A -> R) e l : (forall x, In x l -> 0 <= f x /\ Rabs (S x - T x) <= e * T x) ->
  Rabs (sum (fun x => f x * S x) l - sum (fun x => f x * T x) l) <= e * sum (fun x => f x * T x) l.
Proof.
  induction l as [ | x l IH]; intros H; cbn [sum]; [rewrite Rminus_0_r, Rabs_R0; lra | ].
  specialize (IH (fun y Hy => H y (or_intror Hy))). destruct (H x (or_introl eq_refl)) as (F & E).
  set (a := sum (fun y => f y * S y) l) in *. set (c := sum (fun y => f y * T y) l) in *.
  replace (f x * S x + a - (f x * T x + c)) with (f x * (S x - T x) + (a - c)) by ring.
  eapply Rle_trans; [apply Rabs_triang | ]. rewrite Rabs_mult, (Rabs_right (f x)) by lra. nra.
Qed.
Lemma sum_flat {A B} (f : B -> R) (g : A -> list B) l : sum f (flat_map g l) = sum (fun x => sum f (g x)) l.
Proof. apply sum_flat'. Qed.
Lemma length_flat {A B} (g : A -> list B) k l : (forall x, length (g x) = k) -> length (flat_map g l) = (length l * k)%nat.
Proof. intros H. induction l as [ | x l IH]; cbn [flat_map length]; [reflexivity | ]. rewrite app_length, IH, H. lia. Qed.

Lemma in_tri_box lo up t p : (forall v, In v [P1 t; P2 t; P3 t] -> in_closed (Box lo up) v) -> MeshGeoProofs.in_triangle t p -> in_closed (Box lo up) p.
Proof.
  intros V (x & y & z & X & Y & Z & E & ->). assert (V1 := V (P1 t) (or_introl eq_refl)). assert (V2 := V (P2 t) (or_intror (or_introl eq_refl))).
  assert (V3 := V (P3 t) (or_intror (or_intror (or_introl eq_refl)))). intros a. specialize (V1 a). specialize (V2 a). specialize (V3 a).
  cbn [lower upper] in *. replace (at_ a (vadd (vadd (vscale x (P1 t)) (vscale y (P2 t))) (vscale z (P3 t))))
    with (x * at_ a (P1 t) + y * at_ a (P2 t) + z * at_ a (P3 t)) by (destruct a; reflexivity). replace z with (1 - x - y) by lra. nra.
Qed.
Lemma in_tri_face t p a c : (forall v, In v [P1 t; P2 t; P3 t] -> at_ a v = c) -> MeshGeoProofs.in_triangle t p -> at_ a p = c.
Proof.
  intros V (x & y & z & X & Y & Z & E & ->). assert (V1 := V (P1 t) (or_introl eq_refl)). assert (V2 := V (P2 t) (or_intror (or_introl eq_refl))).
  assert (V3 := V (P3 t) (or_intror (or_intror (or_introl eq_refl)))).
  replace (at_ a (vadd (vadd (vscale x (P1 t)) (vscale y (P2 t))) (vscale z (P3 t))))
    with (x * at_ a (P1 t) + y * at_ a (P2 t) + z * at_ a (P3 t)) by (destruct a; reflexivity). rewrite V1, V2, V3. replace z with (1 - x - y) by lra. ring.
Qed.

(** One triangle of the mesh of the box. *)
Lemma local_points sp b q : bounds_ok b -> wide sp b -> In q (box_tris (lower (eb_global b)) (upper (eb_global b))) ->
  forall x, In x (local_ips sp b (fst q)) -> 0 < bp_weight x /\ on_face (cell_bounds sp b) (bp_pos x) (bp_normal x).
Proof.
  intros H W I x Hx. pose proof H as (Hg & Hp). destruct (eb_global b) as [lo up] eqn:EG. cbn [lower upper] in I.
  destruct (box_face lo up q Hg I) as (a & s & S & N & A & V).
  assert (S' : s = -1 \/ s = 1) by (destruct S as [(-> & _) | (-> & _)]; lra).
  destruct (face_area lo up q a s Hg S' N A) as (Ar & _). destruct (W a) as (W1 & W2). rewrite EG in W1.
  assert (FN := face_normal lo up q a s Hg S' N A W1). assert (OP := others_pos (side (Box lo up)) a (fun c => side_pos _ c Hg)).
  unfold local_ips in Hx. apply in_map_iff in Hx as (y & <- & Hy).
  assert (G : get_ips_global (fst q) 3 = Some (map (global_ip (fst q)) tri_points4)) by reflexivity.
  destruct (weights_and_points _ _ _ G) as (_ & Pin & _). specialize (Pin y Hy).
  assert (Wt : 0 < b_weight y /\ b_normal y = tri_normal (fst q)).
  { destruct (ips_ok _ _ _ G) as (bs & F & _). clear - F Hy Ar OP. induction F as [ | u v l1 l2 P F IH]; [destruct Hy | ].
    destruct Hy as [<- | Hy]; [ | exact (IH Hy)]. destruct v as [[v1 v2] v3]. destruct P as (_ & _ & _ & _ & _ & P5 & P6). split; [lra | exact P5]. }
  destruct Wt as (Wt & Nr). assert (IC := in_tri_box lo up (fst q) _ V Pin).
  assert (FC : (s = -1 /\ at_ a (b_point y) = at_ a lo) \/ (s = 1 /\ at_ a (b_point y) = at_ a up)).
  { destruct S as [(E & F) | (E & F)]; [left | right]; (split; [exact E | exact (in_tri_face _ _ _ _ F Pin)]). }
  destruct sp.
  - cbn [bp_weight bp_pos bp_normal cell_bounds]. split; [exact Wt | ]. rewrite EG. split; [exact IC | ]. exists a. cbn [lower upper]. rewrite Nr, FN, N.
    destruct FC as [(-> & F) | (-> & F)]; [left | right]; split; trivial.
  - specialize (W2 eq_refl). cbv zeta. unfold bp_to_parametric. cbn [bp_weight bp_pos bp_normal]. rewrite Nr, FN, N.
    unfold area_data. rewrite area_vector_face by assumption. assert (KP := others_pos (scale_of b) a (fun c => scale_of_pos b c H)).
    rewrite norm_unit_scaled by assumption. destruct (Rlt_dec _ _) as [_ | Bad]; [ | contradiction]. cbn [bp_weight bp_pos bp_normal cell_bounds].
    split; [nra | ]. split; [apply (param_box _ b H); rewrite EG; exact IC | ]. exists a.
    assert (U : Pt (px (unit_normal a (s * others (scale_of b) a)) * (1 / others (scale_of b) a)) (py (unit_normal a (s * others (scale_of b) a)) * (1 / others (scale_of b) a))
      (pz (unit_normal a (s * others (scale_of b) a)) * (1 / others (scale_of b) a)) = unit_normal a s).
    { destruct a; cbn [unit_normal px py pz]; f_equal; field; lra. }
    rewrite U. assert (Sg := side_pos (eb_global b) a (proj1 H)). assert (Eq := to_parametric_at (b_point y) b a H). rewrite EG in Eq, Sg. cbn [lower] in Eq. unfold side in Eq, Sg. cbn [lower upper] in Eq, Sg.
    destruct FC as [(-> & F) | (-> & F)]; [left | right]; (split; [ | reflexivity]); rewrite Eq, F; [ring | field; lra].
Qed.

Lemma boundary_points sp b : bounds_ok b -> wide sp b ->
  exists l, cell_boundary_ips sp b = Some l /\ length l = 144%nat /\
    (forall x, In x l -> 0 < bp_weight x /\ on_face (cell_bounds sp b) (bp_pos x) (bp_normal x)) /\
    Rabs (sum bp_weight l - surface (cell_bounds sp b)) <= / 10 ^ 13 * surface (cell_bounds sp b).
Proof.
  intros H W. unfold cell_boundary_ips. rewrite box_visit, domain_ips_flat. eexists. split; [reflexivity | ]. split; [ | split].
  - rewrite (length_flat _ 12) by (intros x; reflexivity). reflexivity.
  - intros x Hx. apply in_flat_map in Hx as (q & Iq & Hx). exact (local_points sp b q H W Iq x Hx).
  - rewrite sum_flat. set (lo := lower (eb_global b)) in *. set (up := upper (eb_global b)) in *.
    assert (EG : Box lo up = eb_global b) by (unfold lo, up; destruct (eb_global b); reflexivity).
    assert (Hg : box_ok (Box lo up)) by (rewrite EG; apply H).
    assert (N : forall q, In q (box_tris lo up) -> tri_normal (fst q) = snd q).
    { intros q Iq. destruct (box_face lo up q Hg Iq) as (a & s & S & Nq & A & V). destruct (W a) as (W1 & _). rewrite <- EG in W1.
      apply (face_normal lo up q a s Hg); try assumption. destruct S as [(-> & _) | (-> & _)]; lra. }
    rewrite (sum_ext _ (fun q => factor sp b (snd q) * sum b_weight (map (global_ip (fst q)) tri_points4))) by (intros q Iq; rewrite local_weight_sum, (N q Iq); reflexivity).
    assert (SF : sum (fun q : tri pt * pt => factor sp b (snd q) * tri_area (fst q)) (box_tris lo up) = surface (cell_bounds sp b)).
    { rewrite (sum_ext _ (fun q => / 2 * (if Rlt_dec 0 (Rabs (px (snd q))) then others (side (cell_bounds sp b)) AX
                                else if Rlt_dec 0 (Rabs (py (snd q))) then others (side (cell_bounds sp b)) AY else others (side (cell_bounds sp b)) AZ))).
      - unfold box_tris. cbv zeta. cbn [sum fst snd px py pz]. rewrite ?Rabs_R0, ?Rabs_m1, ?Rabs_R1.
        destruct (Rlt_dec 0 1); [ | lra]. destruct (Rlt_dec 0 0); [lra | ]. unfold surface, others. field.
      - intros q Iq. destruct (box_face lo up q Hg Iq) as (a & s & S & Nq & A & V).
        assert (S' : s = -1 \/ s = 1) by (destruct S as [(-> & _) | (-> & _)]; lra).
        destruct (face_area lo up q a s Hg S' Nq A) as (Ar & _). rewrite Ar, Nq.
        assert (FF := factor_face sp b a s H S'). rewrite <- EG in FF.
        assert (Rs : Rabs s = 1) by (destruct S' as [-> | ->]; rewrite ?Rabs_m1, ?Rabs_R1; reflexivity).
        replace (factor sp b (unit_normal a s) * (others (side (Box lo up)) a / 2)) with (/ 2 * others (side (cell_bounds sp b)) a) by (rewrite <- FF; field).
        destruct a; cbn [unit_normal px py pz]; rewrite ?Rabs_R0, ?Rs; repeat (destruct (Rlt_dec _ _); try lra). }
    rewrite <- SF. apply scaled_error. intros q Iq.
    assert (G : get_ips_global (fst q) 3 = Some (map (global_ip (fst q)) tri_points4)) by reflexivity.
    split; [ | exact (proj1 (weights_and_points _ _ _ G))]. destruct sp; cbn [factor]; [lra | unfold norm; apply sqrt_pos].
Qed.

(** *** The trimmed domain *)
Definition aimed (p : pt) (q : tri pt) : ray := Ray p (unit_dir (vsub (tri_center q) p)).
(** A triangle that a ray is sent to: not degenerate, and not seen edge-on. *)
Definition usable (p : pt) (tol : R) (q : tri pt) : Prop :=
  (norm (vsub (tri_center q) p) = 0 \/ 100 * tol <= Rabs (dot (r_dir (aimed p q)) (normal_dir q))) /\ large q.
(** The answer of a ray that hits no edge. *)
Definition verdict (tris : list (tri pt)) (r : ray) (inside : bool) : Prop :=
  (inside = false /\ exists q, In q tris /\ touches r q) \/
  (inside = false /\ forall q t, In q tris -> crosses r q t -> maxd <= t) \/
  (exists q t, In q tris /\ crosses r q t /\ (inside = true <-> 0 < dot (r_dir r) (normal_dir q)) /\
     forall q' t', In q' tris -> crosses r q' t' -> t <= t').
Definition undecided (tris : list (tri pt)) (p : pt) (tol : R) (q : tri pt) : Prop :=
  usable p tol q -> norm (vsub (tri_center q) p) <> 0 /\ exists q', In q' tris /\ grazes (aimed p q) q'.

Lemma is_target_ok p tol q : is_target p tol q = true <-> usable p tol q.
Proof.
  unfold is_target, usable, large. rewrite andb_true_iff, orb_true_iff, rltb_true.
  assert (C : centred p q = true <-> norm (vsub (tri_center q) p) = 0) by (unfold centred; destruct (Req_EM_T _ _); split; intros; congruence).
  assert (N : negb (is_parallel (aimed p q) q (100 * tol)) = true <-> 100 * tol <= Rabs (dot (r_dir (aimed p q)) (normal_dir q))).
  { rewrite negb_true_iff. unfold is_parallel. rewrite rltb_false. replace (dot (vsub (P2 q) (P1 q)) (cross (r_dir (aimed p q)) (vsub (P3 q) (P1 q))))
      with (- dot (r_dir (aimed p q)) (normal_dir q)) by (unfold normal_dir, dot, cross, vsub; cbn [px py pz]; ring). rewrite Rabs_Ropp. tauto. }
  unfold aimed in *. tauto.
Qed.

Lemma local_inside_ok junk all g p tol : (Z.of_nat (length all) <= 2 ^ 30)%Z -> all <> [] -> make_query junk all false = Some g -> forall tris,
  (exists pre q post inside, tris = pre ++ q :: post /\ (forall q', In q' pre -> undecided all p tol q') /\ usable p tol q /\
     ((norm (vsub (tri_center q) p) = 0 /\ inside = false) \/ (norm (vsub (tri_center q) p) <> 0 /\ verdict all (aimed p q) inside)) /\
     local_inside g p tol tris = Some (inside, true)) \/
  ((forall q, In q tris -> undecided all p tol q) /\ local_inside g p tol tris = Some (false, false)).
Proof.
  intros Hl Hn Eg. induction tris as [ | q tris IH]; cbn [local_inside]; [right; split; [intros q [] | reflexivity] | ].
  destruct (is_target p tol q) eqn:T.
  - pose proof T as U. apply is_target_ok in U. pose proof (aimed_defined junk all g p q Hl Hn Eg) as D. destruct (aimed_cast g p q) as [inside [ | ] | ] eqn:A; [ | | contradiction].
    + left. exists [], q, tris, inside. split; [reflexivity | ]. split; [intros q' [] | ]. split; [exact U | ]. split; [ | reflexivity].
      unfold aimed_cast, centred in A. destruct (Req_EM_T _ _) as [C | C].
      * left. split; [exact C | ]. destruct (candidates _ _); congruence.
      * right. split; [exact C | ]. pose proof (open_cast_ok junk all g (aimed p q) Hl Hn Eg) as K. unfold aimed in K at 1. rewrite A in K. exact K.
    + assert (Un : undecided all p tol q).
      { intros _. unfold aimed_cast, centred in A. destruct (Req_EM_T _ _) as [C | C]; [destruct (candidates _ _); discriminate | ].
        split; [exact C | ]. pose proof (open_cast_ok junk all g (aimed p q) Hl Hn Eg) as K. unfold aimed in K at 1. rewrite A in K. exact (proj2 K). }
      destruct IH as [(pre & q' & post & i & -> & P & R) | (P & R)]; [left | right].
      * exists (q :: pre), q', post, i. split; [reflexivity | ]. split; [intros x [<- | Hx]; auto | exact R].
      * split; [intros x [<- | Hx]; auto | exact R].
  - assert (Un : undecided all p tol q) by (intros U; apply is_target_ok in U; congruence).
    destruct IH as [(pre & q' & post & i & -> & P & R) | (P & R)]; [left | right].
    + exists (q :: pre), q', post, i. split; [reflexivity | ]. split; [intros x [<- | Hx]; auto | exact R].
    + split; [intros x [<- | Hx]; auto | exact R].
Qed.

(** The state of a domain after construction. *)
Definition constructed (junk : nat -> node RA) (d : trimmed) : Prop :=
  (Z.of_nat (length (td_clipped d)) <= 2 ^ 30)%Z /\ make_query junk (td_clipped d) false = Some (td_query d).
Definition point_of (sp : space) (p : pt) (b : ebounds) : pt := match sp with Global => p | Parametric => to_global p b end.

Lemma trimmed_point junk d sp x b : constructed junk d ->
  let p := point_of sp x b in let tris := td_clipped d in let tol := td_snap d in
  (tris = [] /\ trimmed_is_inside sp d x b = Some true) \/
  (exists pre q post inside, tris = pre ++ q :: post /\ (forall q', In q' pre -> undecided tris p tol q') /\ usable p tol q /\
     ((norm (vsub (tri_center q) p) = 0 /\ inside = false) \/ (norm (vsub (tri_center q) p) <> 0 /\ verdict tris (aimed p q) inside)) /\
     trimmed_is_inside sp d x b = Some inside) \/
  (tris <> [] /\ (forall q, In q tris -> undecided tris p tol q) /\ trimmed_is_inside sp d x b = td_global d p).
Proof.
  intros (Hl & Eg) p tris tol. unfold trimmed_is_inside. change (match sp with Global => x | Parametric => to_global x b end) with p. unfold trimmed_inside.
  destruct (td_clipped d) as [ | q0 l] eqn:E; [left; split; reflexivity | ]. right. subst tris. fold tol.
  assert (Hn : q0 :: l <> []) by discriminate.
  destruct (local_inside_ok junk (q0 :: l) (td_query d) p tol Hl Hn Eg (q0 :: l)) as [(pre & q & post & i & E1 & P & U & V & R) | (P & R)]; rewrite R.
  - left. exists pre, q, post, i. auto.
  - right. auto.
Qed.

(** The bounding box of a list of points. *)
Lemma lower_spec v b : extend_lower v b = Rmin v b.
Proof. unfold extend_lower, rltb, Rmin. destruct (Rlt_dec _ _), (Rle_dec _ _); lra. Qed.
Lemma upper_spec v b : extend_upper v b = Rmax v b.
Proof. unfold extend_upper, rltb, Rmax. destruct (Rlt_dec _ _), (Rle_dec _ _); lra. Qed.
Definition extend (b : box) (v : pt) : box :=
  Box (Pt (Rmin (px v) (px (lower b))) (Rmin (py v) (py (lower b))) (Rmin (pz v) (pz (lower b))))
      (Pt (Rmax (px v) (px (upper b))) (Rmax (py v) (py (upper b))) (Rmax (pz v) (pz (upper b)))).
Lemma vertices_box_extend l : vertices_box l = fold_left extend l (Box (Pt maxd maxd maxd) (Pt (- maxd) (- maxd) (- maxd))).
Proof.
  unfold vertices_box. generalize (Box (Pt maxd maxd maxd) (Pt (- maxd) (- maxd) (- maxd))).
  induction l as [ | v l IH]; intros b; cbn [fold_left]; [reflexivity | ]. rewrite IH. unfold extend at 2. rewrite !lower_spec, !upper_spec. reflexivity.
Qed.
Lemma extend_at a b v : at_ a (lower (extend b v)) = Rmin (at_ a v) (at_ a (lower b)) /\ at_ a (upper (extend b v)) = Rmax (at_ a v) (at_ a (upper b)).
Proof. destruct a; split; reflexivity. Qed.
Lemma fold_extend l : forall b a,
  (at_ a (lower (fold_left extend l b)) <= at_ a (lower b)) /\ (forall v, In v l -> at_ a (lower (fold_left extend l b)) <= at_ a v) /\
  (at_ a (upper b) <= at_ a (upper (fold_left extend l b))) /\ (forall v, In v l -> at_ a v <= at_ a (upper (fold_left extend l b))) /\
  (at_ a (lower (fold_left extend l b)) = at_ a (lower b) \/ exists v, In v l /\ at_ a (lower (fold_left extend l b)) = at_ a v) /\
  (at_ a (upper (fold_left extend l b)) = at_ a (upper b) \/ exists v, In v l /\ at_ a (upper (fold_left extend l b)) = at_ a v).
Proof.
  induction l as [ | w l IH]; intros b a; cbn [fold_left].
  - repeat split; try lra; try (intros v []); auto.
  - destruct (IH (extend b w) a) as (I1 & I2 & I3 & I4 & I5 & I6). destruct (extend_at a b w) as (E1 & E2).
    set (r := fold_left extend l (extend b w)) in *.
    pose proof (Rmin_l (at_ a w) (at_ a (lower b))). pose proof (Rmin_r (at_ a w) (at_ a (lower b))).
    pose proof (Rmax_l (at_ a w) (at_ a (upper b))). pose proof (Rmax_r (at_ a w) (at_ a (upper b))).
    split; [lra | ]. split; [intros v [<- | Hv]; [lra | auto] | ]. split; [lra | ]. split; [intros v [<- | Hv]; [lra | auto] | ]. split.
    + destruct I5 as [I5 | (v & Hv & I5)]; [ | right; exists v; split; [right; exact Hv | exact I5]].
      rewrite E1 in I5. unfold Rmin in I5. destruct (Rle_dec _ _); [right; exists w; split; [left; reflexivity | exact I5] | left; exact I5].
    + destruct I6 as [I6 | (v & Hv & I6)]; [ | right; exists v; split; [right; exact Hv | exact I6]].
      rewrite E2 in I6. unfold Rmax in I6. destruct (Rle_dec _ _); [left; exact I6 | right; exists w; split; [left; reflexivity | exact I6]].
Qed.

Definition finite_point (v : pt) : Prop := forall a, - maxd <= at_ a v <= maxd.
(** The smallest box around the points. *)
Definition tight (l : list pt) (b : box) : Prop :=
  (forall v, In v l -> in_closed b v) /\ forall a, (exists v, In v l /\ at_ a v = at_ a (lower b)) /\ (exists v, In v l /\ at_ a v = at_ a (upper b)).
Lemma trimmed_box sp d b : bounds_ok b -> m_vertices (td_closed d) <> [] -> Forall finite_point (m_vertices (td_closed d)) ->
  tight (map (fun v => match sp with Global => v | Parametric => to_parametric v b end) (m_vertices (td_closed d))) (trimmed_bounds sp d b).
Proof.
  intros H Hn Hf. set (l := m_vertices (td_closed d)) in *. unfold trimmed_bounds. fold l. cbv zeta.
  assert (T : tight l (vertices_box l)).
  { rewrite vertices_box_extend. set (b0 := Box _ _). rewrite Forall_forall in Hf. destruct l as [ | v0 l0] eqn:El; [contradiction | ].
    rewrite <- El in *. assert (I0 : In v0 l) by (rewrite El; left; reflexivity). assert (F0 := Hf v0 I0).
    assert (L0 : forall a, at_ a (lower b0) = maxd /\ at_ a (upper b0) = - maxd) by (intros a; destruct a; split; reflexivity). split.
    - intros v Hv a. destruct (fold_extend l b0 a) as (_ & I2 & _ & I4 & _). split; auto.
    - intros a. destruct (fold_extend l b0 a) as (I1 & I2 & I3 & I4 & I5 & I6). destruct (L0 a) as (La & Ua). specialize (F0 a). split.
      + destruct I5 as [I5 | (v & Hv & I5)]; [exists v0 | exists v; auto]. split; [exact I0 | ]. specialize (I2 v0 I0). lra.
      + destruct I6 as [I6 | (v & Hv & I6)]; [exists v0 | exists v; auto]. split; [exact I0 | ]. specialize (I4 v0 I0). lra. }
  destruct sp; [rewrite map_id; exact T | ]. destruct T as (T1 & T2). pose proof H as (Hg & Hp). split.
  - intros v Hv a. apply in_map_iff in Hv as (w & <- & Hw). specialize (T1 w Hw a). cbn [lower upper]. rewrite !to_parametric_at by assumption.
    assert (K : 0 < side (eb_param b) a / side (eb_global b) a) by (apply Rdiv_lt_0_compat; apply side_pos; assumption). nra.
  - intros a. cbn [lower upper]. destruct (T2 a) as ((v & Hv & Ev) & (w & Hw & Ew)). split.
    + exists (to_parametric v b). split; [apply (in_map (fun v => to_parametric v b)), Hv | ]. rewrite !to_parametric_at, Ev by assumption. reflexivity.
    + exists (to_parametric w b). split; [apply (in_map (fun v => to_parametric v b)), Hw | ]. rewrite !to_parametric_at, Ew by assumption. reflexivity.
Qed.

Lemma trimmed_box_state junk d sp l u b tol : constructed junk d -> td_clipped d <> [] -> 0 <= tol ->
  let l' := point_of sp l b in let u' := point_of sp u b in
  (forall i, at_ i l' + relative_tol l' u' tol <= at_ i u' - relative_tol l' u' tol) ->
  let met := exists q x, In q (td_clipped d) /\ in_triangle q x /\ in_box l' u' (relative_tol l' u' tol) x in
  let centre := vscale (1/2) (vadd l' u') in
  (trimmed_state sp d l u b tol = Some LTrimmed <-> met) /\
  (trimmed_state sp d l u b tol = Some LInside <-> ~ met /\ trimmed_is_inside Global d centre b = Some true) /\
  (trimmed_state sp d l u b tol = Some LOutside <-> ~ met /\ trimmed_is_inside Global d centre b = Some false).
Proof.
  intros (Hl & Eg) Hn Ht l' u' Hb met centre.
  destruct (do_intersect_ok junk (td_clipped d) false (td_query d) l' u' tol Hl Hn Eg Ht Hb) as (m & E & Hm). fold met in Hm.
  assert (S : trimmed_state sp d l u b tol = match do_intersect (td_query d) l' u' tol with
    | None => None | Some true => Some LTrimmed
    | Some false => match trimmed_is_inside Global d centre b with None => None | Some true => Some LInside | Some false => Some LOutside end end)
    by (destruct sp; reflexivity).
  rewrite S, E. destruct m.
  - assert (M : met) by (apply Hm; reflexivity). refine (conj (conj _ _) (conj (conj _ _) (conj _ _))); intros; try discriminate; try tauto.
  - assert (M : ~ met) by (intros M; apply Hm in M; discriminate).
    destruct (trimmed_is_inside Global d centre b) as [[ | ] | ]; refine (conj (conj _ _) (conj (conj _ _) (conj _ _))); intros K; try discriminate; try tauto;
      try (destruct K as (_ & K); discriminate).
Qed.

(** *** Both spaces *)
Lemma rltb_affine x y l k c : 0 < k -> rltb ((x - l) * k + c) ((y - l) * k + c) = rltb x y.
Proof. intros K. unfold rltb. destruct (Rlt_dec _ _), (Rlt_dec _ _); try reflexivity; exfalso; nra. Qed.
Lemma rleb_affine x y l k c : 0 < k -> rleb ((x - l) * k + c) ((y - l) * k + c) = rleb x y.
Proof. intros K. unfold rleb. destruct (Rle_dec _ _), (Rle_dec _ _); try reflexivity; exfalso; nra. Qed.
Lemma same_in_both p l u b : bounds_ok b ->
  cell_is_inside Parametric (to_parametric p b) b = cell_is_inside Global p b /\
  cell_state Parametric (to_parametric l b) (to_parametric u b) b 0 = cell_state Global l u b 0.
Proof.
  intros H. destruct (MappingProps.corners b H) as (C1 & C2 & _).
  assert (K : forall a, 0 < side (eb_param b) a / side (eb_global b) a) by (intros a; apply Rdiv_lt_0_compat; apply side_pos; apply H).
  pose proof (K AX) as KX. pose proof (K AY) as KY. pose proof (K AZ) as KZ.
  assert (LT : forall v w, rltb (px (to_parametric v b)) (px (to_parametric w b)) = rltb (px v) (px w) /\ rltb (py (to_parametric v b)) (py (to_parametric w b)) = rltb (py v) (py w) /\
    rltb (pz (to_parametric v b)) (pz (to_parametric w b)) = rltb (pz v) (pz w)).
  { intros v w. pose proof (to_parametric_at v b AX H) as V1. pose proof (to_parametric_at v b AY H) as V2. pose proof (to_parametric_at v b AZ H) as V3.
    pose proof (to_parametric_at w b AX H) as W1. pose proof (to_parametric_at w b AY H) as W2. pose proof (to_parametric_at w b AZ H) as W3. cbn [at_] in V1, V2, V3, W1, W2, W3.
    rewrite V1, V2, V3, W1, W2, W3, !rltb_affine by assumption. auto. }
  assert (LE : forall v w, rleb (px (to_parametric v b)) (px (to_parametric w b)) = rleb (px v) (px w) /\ rleb (py (to_parametric v b)) (py (to_parametric w b)) = rleb (py v) (py w) /\
    rleb (pz (to_parametric v b)) (pz (to_parametric w b)) = rleb (pz v) (pz w)).
  { intros v w. pose proof (to_parametric_at v b AX H) as V1. pose proof (to_parametric_at v b AY H) as V2. pose proof (to_parametric_at v b AZ H) as V3.
    pose proof (to_parametric_at w b AX H) as W1. pose proof (to_parametric_at w b AY H) as W2. pose proof (to_parametric_at w b AZ H) as W3. cbn [at_] in V1, V2, V3, W1, W2, W3.
    rewrite V1, V2, V3, W1, W2, W3, !rleb_affine by assumption. auto. }
  unfold cell_is_inside, cell_state. cbn [cell_bounds]. rewrite <- C1, <- C2, !Rplus_0_r, !Rminus_0_r. split.
  - rewrite !(proj1 (LE _ _)), !(proj1 (proj2 (LE _ _))), !(proj2 (proj2 (LE _ _))). reflexivity.
  - rewrite !(proj1 (LE _ _)), !(proj1 (proj2 (LE _ _))), !(proj2 (proj2 (LE _ _))), !(proj1 (LT _ _)), !(proj1 (proj2 (LT _ _))), !(proj2 (proj2 (LT _ _))). reflexivity.
Qed.

(** *** C53 *)
(** The point test of a cell is containment in its closed box. *)
Theorem C53_cell_point : forall sp p b, cell_is_inside sp p b = true <-> in_closed (cell_bounds sp b) p.
Proof. exact cell_point. Qed.
Print Assumptions C53_cell_point.

(** The box test of a cell compares the sets of points, if something is left of the box after the tolerance is taken off. *)
Theorem C53_cell_box : forall sp l u b tol, box_ok (cell_bounds sp b) -> not_empty (shrunk l u tol) ->
  (cell_state sp l u b tol = LOutside <-> ~ share (cell_bounds sp b) (shrunk l u tol)) /\
  (cell_state sp l u b tol = LInside <-> within (shrunk l u tol) (cell_bounds sp b)) /\
  (cell_state sp l u b tol = LTrimmed <-> share (cell_bounds sp b) (shrunk l u tol) /\ ~ within (shrunk l u tol) (cell_bounds sp b)).
Proof. exact cell_box. Qed.
Print Assumptions C53_cell_box.

(** Both spaces give the same answers. *)
Theorem C53_spaces : forall p l u b, bounds_ok b ->
  cell_is_inside Parametric (to_parametric p b) b = cell_is_inside Global p b /\
  cell_state Parametric (to_parametric l b) (to_parametric u b) b 0 = cell_state Global l u b 0.
Proof. exact same_in_both. Qed.
Print Assumptions C53_spaces.

(** The boundary points of a cell: 12 on each of 12 triangles, on the faces, with outward unit normals and positive weights that sum
    up to the surface area, in both spaces. *)
Theorem C53_boundary_points : forall sp b, bounds_ok b -> wide sp b ->
  exists l, cell_boundary_ips sp b = Some l /\ length l = 144%nat /\
    (forall x, In x l -> 0 < bp_weight x /\ on_face (cell_bounds sp b) (bp_pos x) (bp_normal x)) /\
    Rabs (sum bp_weight l - surface (cell_bounds sp b)) <= / 10 ^ 13 * surface (cell_bounds sp b).
Proof. exact boundary_points. Qed.
Print Assumptions C53_boundary_points.

(** The point test of a trimmed domain: the first ray to a triangle of the section that hits no edge decides; if there is none, the
    whole geometry is asked. *)
Theorem C53_trimmed_point : forall junk d sp x b, constructed junk d ->
  let p := point_of sp x b in let tris := td_clipped d in let tol := td_snap d in
  (tris = [] /\ trimmed_is_inside sp d x b = Some true) \/
  (exists pre q post inside, tris = pre ++ q :: post /\ (forall q', In q' pre -> undecided tris p tol q') /\ usable p tol q /\
     ((norm (vsub (tri_center q) p) = 0 /\ inside = false) \/ (norm (vsub (tri_center q) p) <> 0 /\ verdict tris (aimed p q) inside)) /\
     trimmed_is_inside sp d x b = Some inside) \/
  (tris <> [] /\ (forall q, In q tris -> undecided tris p tol q) /\ trimmed_is_inside sp d x b = td_global d p).
Proof. exact trimmed_point. Qed.
Print Assumptions C53_trimmed_point.

(** The bounds of a trimmed domain are the smallest box around the vertices of its closed mesh. *)
Theorem C53_trimmed_bounds : forall sp d b, bounds_ok b -> m_vertices (td_closed d) <> [] -> Forall finite_point (m_vertices (td_closed d)) ->
  tight (map (fun v => match sp with Global => v | Parametric => to_parametric v b end) (m_vertices (td_closed d))) (trimmed_bounds sp d b).
Proof. exact trimmed_box. Qed.
Print Assumptions C53_trimmed_bounds.

(** The box test of a trimmed domain: trimmed exactly if a triangle of the section meets the box (less the tolerance), otherwise the
    answer for its centre. *)
Theorem C53_trimmed_box : forall junk d sp l u b tol, constructed junk d -> td_clipped d <> [] -> 0 <= tol ->
  let l' := point_of sp l b in let u' := point_of sp u b in
  (forall i, at_ i l' + relative_tol l' u' tol <= at_ i u' - relative_tol l' u' tol) ->
  let met := exists q x, In q (td_clipped d) /\ in_triangle q x /\ in_box l' u' (relative_tol l' u' tol) x in
  let centre := vscale (1/2) (vadd l' u') in
  (trimmed_state sp d l u b tol = Some LTrimmed <-> met) /\
  (trimmed_state sp d l u b tol = Some LInside <-> ~ met /\ trimmed_is_inside Global d centre b = Some true) /\
  (trimmed_state sp d l u b tol = Some LOutside <-> ~ met /\ trimmed_is_inside Global d centre b = Some false).
Proof. exact trimmed_box_state. Qed.
Print Assumptions C53_trimmed_box.

(** A domain without a section: the point test says inside but the box test reads a node that does not exist. *)
Lemma empty_section junk d l u tol : constructed junk d -> td_clipped d = [] -> valid_primitive l u = true -> trimmed_state_global d l u tol = None.
Proof.
  intros (Hl & Eg) E V. rewrite E in Eg, Hl. destruct (make_query_ok junk [] false Hl) as (g & Eg' & _ & _ & _ & ps & I & _ & M).
  assert (g = td_query d) by congruence. subst g.
  assert (P : ps = []) by (destruct ps as [ | [i x] ps]; [reflexivity | exfalso; destruct (proj1 (M i x) (or_introl eq_refl)) as (q & Q & _); destruct i; discriminate]).
  subst ps. unfold trimmed_state_global, do_intersect, candidates. rewrite V, (query_empty RA _ _ I). reflexivity.
Qed.
Theorem C53_empty_section_refuted : forall junk d sp l u x b tol, constructed junk d -> td_clipped d = [] ->
  valid_primitive (point_of sp l b) (point_of sp u b) = true ->
  trimmed_is_inside sp d x b = Some true /\ trimmed_state sp d l u b tol = None.
Proof.
  intros junk d sp l u x b tol C E V. split; [unfold trimmed_is_inside, trimmed_inside; rewrite E; reflexivity | ].
  destruct sp; cbn [trimmed_state]; eapply empty_section; eauto.
Qed.
Print Assumptions C53_empty_section_refuted.

(** A tolerance of more than half the thickness: the box is reported as outside though its centre is inside. *)
Definition unit_cell : ebounds := EB (Box (Pt 0 0 0) (Pt 1 1 1)) (Box (Pt 0 0 0) (Pt 10 10 10)).
Lemma rltb_yes a b : a < b -> rltb a b = true. Proof. intros; apply rltb_true; assumption. Qed.
Lemma rltb_no a b : b <= a -> rltb a b = false. Proof. intros; apply rltb_false; assumption. Qed.
Lemma rleb_yes a b : a <= b -> rleb a b = true. Proof. intros; apply rleb_true; assumption. Qed.
Lemma rleb_no a b : b < a -> rleb a b = false. Proof. intros H. apply not_true_iff_false. rewrite rleb_true. lra. Qed.
Ltac decide_cmp := repeat match goal with
  | |- context [rltb ?a ?b] => first [rewrite (rltb_yes a b) by lra | rewrite (rltb_no a b) by lra]
  | |- context [rleb ?a ?b] => first [rewrite (rleb_yes a b) by lra | rewrite (rleb_no a b) by lra] end.
Theorem C53_thin_refuted : cell_state Global (Pt (4/5) (4/5) (4/5)) (Pt (6/5) (6/5) (6/5)) unit_cell (1/2) = LOutside /\
  cell_is_inside Global (Pt 1 1 1) unit_cell = true.
Proof.
  split; unfold cell_state, cell_is_inside; cbn [cell_bounds unit_cell eb_global lower upper px py pz]; decide_cmp; reflexivity.
Qed.
Print Assumptions C53_thin_refuted.
(** The tolerance is not mapped: the same box gets different answers in the two spaces. *)
Theorem C53_tolerance_refuted : let l := Pt (-1/10) 0 0 in let u := Pt (1/2) (1/2) (1/2) in
  bounds_ok unit_cell /\ cell_state Global l u unit_cell (1/10) = LInside /\
  cell_state Parametric (to_parametric l unit_cell) (to_parametric u unit_cell) unit_cell (1/10) = LTrimmed.
Proof.
  intros l u. assert (B : bounds_ok unit_cell) by (split; intros a; destruct a; cbn; lra). split; [exact B | ].
  assert (El : to_parametric l unit_cell = Pt (-1) 0 0) by (apply Geo.pt_eq; intros a; rewrite to_parametric_at by exact B; unfold side, l, u; destruct a; cbn [at_ unit_cell eb_global eb_param lower upper px py pz]; field).
  assert (Eu : to_parametric u unit_cell = Pt 5 5 5) by (apply Geo.pt_eq; intros a; rewrite to_parametric_at by exact B; unfold side, l, u; destruct a; cbn [at_ unit_cell eb_global eb_param lower upper px py pz]; field).
  rewrite El, Eu. split; unfold cell_state, l, u; cbn [cell_bounds unit_cell eb_global eb_param lower upper px py pz]; decide_cmp; reflexivity.
Qed.
Print Assumptions C53_tolerance_refuted.

(** The hypotheses are met: a cell with boxes of all three kinds; a domain cut by one triangle. *)
Example C53_example : bounds_ok unit_cell /\ wide Global unit_cell /\ wide Parametric unit_cell /\
  cell_state Global (Pt (1/4) (1/4) (1/4)) (Pt (1/2) (1/2) (1/2)) unit_cell 0 = LInside /\
  cell_state Global (Pt (1/2) (1/2) (1/2)) (Pt 2 2 2) unit_cell 0 = LTrimmed /\
  cell_state Global (Pt 2 2 2) (Pt 3 3 3) unit_cell 0 = LOutside /\
  not_empty (shrunk (Pt (1/4) (1/4) (1/4)) (Pt (1/2) (1/2) (1/2)) 0).
Proof.
  pose proof zerotol_small.
  split; [split; intros a; destruct a; cbn; lra | ].
  assert (G : forall a, zerotol < others (side (eb_global unit_cell)) a).
  { intros a. unfold others, side. destruct a; cbn [at_ unit_cell eb_global lower upper px py pz]; lra. }
  split; [intros a; split; [apply G | discriminate] | ].
  split; [intros a; split; [apply G | ]; intros _; unfold others, scale_of, side; destruct a; cbn [at_ unit_cell eb_global eb_param lower upper px py pz];
          replace ((10 - 0) / (1 - 0)) with 10 by field; lra | ].
  split; [ | split; [ | split]]; try (unfold cell_state; cbn [cell_bounds unit_cell eb_global lower upper px py pz]; decide_cmp; reflexivity).
  exists (Pt (1/3) (1/3) (1/3)). apply closed_coords. cbn. lra.
Qed.
Definition cut_cell (g : gquery) : trimmed :=
  Trimmed [Tri (Pt (1/2) (-10) (-10)) (Pt (1/2) 20 (-10)) (Pt (1/2) (-10) 20)] g (mesh_box (Pt 0 0 0) (Pt (1/2) 1 1)) (/ 10 ^ 12) (fun _ => Some false).
Example C53_trimmed_example : forall junk, exists g, constructed junk (cut_cell g) /\ td_clipped (cut_cell g) <> [] /\
  m_vertices (td_closed (cut_cell g)) <> [] /\ Forall finite_point (m_vertices (td_closed (cut_cell g))) /\
  (forall i, at_ i (Pt 0 0 0) + relative_tol (Pt 0 0 0) (Pt 1 1 1) (/ 10) <= at_ i (Pt 1 1 1) - relative_tol (Pt 0 0 0) (Pt 1 1 1) (/ 10)).
Proof.
  intros junk. destruct (make_query_ok junk [Tri (Pt (1/2) (-10) (-10)) (Pt (1/2) 20 (-10)) (Pt (1/2) (-10) 20)] false ltac:(cbn; lia)) as (g & E & _).
  exists g. split; [split; [cbn; lia | exact E] | ]. split; [discriminate | ]. split; [discriminate | ].
  assert (M : 1 <= maxd) by (unfold maxd; assert (H2 := pow_R1_Rle 2 1023 ltac:(lra)); assert (H3 : / 2 ^ 52 <= 1) by (rewrite <- Rinv_1; apply Rinv_le_contravar; [lra | apply pow_R1_Rle; lra]); nra).
  split; [ | intros i; unfold relative_tol, Rmax; destruct i; cbn [at_ px py pz]; repeat destruct (Rle_dec _ _); lra].
  apply Forall_forall. intros v Hv.
  change (In v [Pt 0 0 0; Pt (1/2) 0 0; Pt 0 1 0; Pt (1/2) 1 0; Pt 0 0 1; Pt (1/2) 0 1; Pt 0 1 1; Pt (1/2) 1 1]) in Hv.
  repeat destruct Hv as [<- | Hv]; [.. | destruct Hv]; intros a; destruct a; cbn [at_ px py pz]; lra.
Qed.

(** The points of an element in global space integrate over the mapped domain. *)
Lemma element_points_ok points b : bounds_ok b ->
  (forall q, In q points -> in_closed (eb_param b) (ip_pos q)) ->
  (forall q, In q (element_points Global points b) -> in_closed (eb_global b) (ip_pos q)) /\
  (forall f : pt -> R, sum (fun q => ip_weight q * f (ip_pos q)) (element_points Global points b) =
    box_volume (eb_global b) / box_volume (eb_param b) * sum (fun q => ip_weight q * f (to_global (ip_pos q) b)) (element_points Parametric points b)).
Proof.
  intros H I. cbn [element_points]. split.
  - intros q Hq. apply in_map_iff in Hq as (q' & <- & Hq). cbn [ip_pos]. apply (global_box _ b H), I, Hq.
  - intros f. rewrite sum_map, <- sum_scal. apply sum_ext. intros q _. cbn [ip_pos ip_weight]. rewrite det_j_eq by assumption. ring.
Qed.
Theorem C53_element_points : forall points b, bounds_ok b ->
  (forall q, In q points -> in_closed (eb_param b) (ip_pos q)) ->
  (forall q, In q (element_points Global points b) -> in_closed (eb_global b) (ip_pos q)) /\
  (forall f : pt -> R, sum (fun q => ip_weight q * f (ip_pos q)) (element_points Global points b) =
    box_volume (eb_global b) / box_volume (eb_param b) * sum (fun q => ip_weight q * f (to_global (ip_pos q) b)) (element_points Parametric points b)).
Proof. exact element_points_ok. Qed.
Print Assumptions C53_element_points.
Example C53_points_example : bounds_ok unit_cell /\ (forall q, In q [IP (Pt 5 5 5) 1000] -> in_closed (eb_param unit_cell) (ip_pos q)).
Proof.
  split; [split; intros a; destruct a; cbn; lra | ]. intros q [<- | []]. apply closed_coords. cbn. lra.
Qed.
