(** What the section of a closed surface in a box tells about a point that sees it. *)
From Coq Require Import Reals List Arith Bool ZArith Permutation Lia Lra Psatz.
From Verif Require Import Geo MappingModel TrimmedQuadModel MeshModel MeshGeoModel MeshGeoProofs MeshBoxProofs StlModel SearchModel SearchProofs GeoQueryModel SatMain GeoQueryProofs RayProofs CastProofs GeoQueryProps
  ClipResult ConditionProofs ParitySpec ParitySign ParityGeo ParityDir ParityMain ParityPath ParityCast FloodGeoSpec.
Import ListNotations.
Local Open Scope R_scope.

Lemma zero_comb a b c x y z : 0 < a -> 0 < b -> 0 < c -> 0 <= x -> 0 <= y -> 0 <= z -> 0 < a * x + b * y + c * z \/ (x = 0 /\ y = 0 /\ z = 0).
Proof.
  intros A B C X Y Z. assert (P1 := Rmult_le_pos a x ltac:(lra) X). assert (P2 := Rmult_le_pos b y ltac:(lra) Y). assert (P3 := Rmult_le_pos c z ltac:(lra) Z).
  destruct (Rlt_dec 0 x); [left; assert (0 < a * x) by (apply Rmult_lt_0_compat; lra); lra|]. destruct (Rlt_dec 0 y); [left; assert (0 < b * y) by (apply Rmult_lt_0_compat; lra); lra|].
  destruct (Rlt_dec 0 z); [left; assert (0 < c * z) by (apply Rmult_lt_0_compat; lra); lra|]. right. lra.
Qed.
(** The interior of a piece of a triangle is in the interior of the triangle. *)
Lemma corner_plane q x : MeshGeoProofs.in_triangle q x -> exists u v, 0 <= u /\ 0 <= v /\ u + v <= 1 /\ x = plane_point q u v.
Proof.
  intros (a & b & c & A & B & C & S & ->). exists b, c. repeat (split; [lra|]). unfold plane_point, vadd, vscale, vsub. cbn [px py pz]. replace a with (1 - b - c) by lra. f_equal; ring.
Qed.
Lemma piece_interior s q u v : piece_of s q -> normal_dir s <> Pt 0 0 0 -> 0 < u -> 0 < v -> u + v < 1 -> exists u' v', 0 < u' /\ 0 < v' /\ u' + v' < 1 /\ plane_point s u v = plane_point q u' v'.
Proof.
  intros (C1 & C2 & C3 & _) N U V W. destruct (corner_plane q _ C1) as (u1 & v1 & A1 & B1 & S1 & E1). destruct (corner_plane q _ C2) as (u2 & v2 & A2 & B2 & S2 & E2).
  destruct (corner_plane q _ C3) as (u3 & v3 & A3 & B3 & S3 & E3). exists ((1 - u - v) * u1 + u * u2 + v * u3), ((1 - u - v) * v1 + u * v2 + v * v3).
  assert (En : normal_dir s = vscale ((u2 - u1) * (v3 - v1) - (v2 - v1) * (u3 - u1)) (normal_dir q)).
  { unfold normal_dir. rewrite E1, E2, E3. unfold plane_point, cross, vadd, vscale, vsub. cbn [px py pz]. f_equal; ring. }
  assert (Nz : (u2 - u1) * (v3 - v1) - (v2 - v1) * (u3 - u1) <> 0).
  { intros Z. apply N. rewrite En, Z. unfold vscale. f_equal; ring. }
  split; [|split; [|split]].
  - destruct (zero_comb (1 - u - v) u v u1 u2 u3 ltac:(lra) U V A1 A2 A3) as [P|(Z1 & Z2 & Z3)]; [lra|]. exfalso. apply Nz. rewrite Z1, Z2, Z3. ring.
  - destruct (zero_comb (1 - u - v) u v v1 v2 v3 ltac:(lra) U V B1 B2 B3) as [P|(Z1 & Z2 & Z3)]; [lra|]. exfalso. apply Nz. rewrite Z1, Z2, Z3. ring.
  - destruct (zero_comb (1 - u - v) u v (1 - u1 - v1) (1 - u2 - v2) (1 - u3 - v3) ltac:(lra) U V ltac:(lra) ltac:(lra) ltac:(lra)) as [P|(Z1 & Z2 & Z3)]; [lra|]. exfalso. apply Nz.
    replace v1 with (1 - u1) by lra. replace v2 with (1 - u2) by lra. replace v3 with (1 - u3) by lra. ring.
  - unfold plane_point at 1. rewrite E1, E2, E3. unfold plane_point, vadd, vscale, vsub. cbn [px py pz]. f_equal; ring.
Qed.
Lemma piece_in s q x : piece_of s q -> in_triangle s x -> in_triangle q x.
Proof.
  intros (C1 & C2 & C3 & _) X. apply in_triangle_same. apply in_triangle_same in X. destruct X as (a & b & c & A & B & C & S & ->).
  destruct C1 as (a1 & b1 & c1 & H1 & H2 & H3 & H4 & E1). destruct C2 as (a2 & b2 & c2 & K1 & K2 & K3 & K4 & E2). destruct C3 as (a3 & b3 & c3 & L1 & L2 & L3 & L4 & E3).
  exists (a * a1 + b * a2 + c * a3), (a * b1 + b * b2 + c * b3), (a * c1 + b * c2 + c * c3).
  split; [|split; [|split; [|split]]].
  - repeat apply Rplus_le_le_0_compat; apply Rmult_le_pos; assumption.
  - repeat apply Rplus_le_le_0_compat; apply Rmult_le_pos; assumption.
  - repeat apply Rplus_le_le_0_compat; apply Rmult_le_pos; assumption.
  - transitivity (a * (a1 + b1 + c1) + b * (a2 + b2 + c2) + c * (a3 + b3 + c3)); [ring|]. rewrite H4, K4, L4. lra.
  - rewrite E1, E2, E3. unfold vadd, vscale. cbn [px py pz]. f_equal; ring.
Qed.
Lemma plane_in q u v : 0 <= u -> 0 <= v -> u + v <= 1 -> in_triangle q (plane_point q u v).
Proof. intros U V W. exists (1 - u - v), u, v. repeat (split; [lra|]). intros []; cbn; ring. Qed.
Lemma centre_plane q : tri_center q = plane_point q (1/3) (1/3).
Proof. unfold tri_center, plane_point, vadd, vscale, vsub. cbn [px py pz]. f_equal; lra. Qed.
Lemma centre_in q : in_triangle q (tri_center q).
Proof. rewrite centre_plane. apply plane_in; lra. Qed.
Lemma between_0 p c : between p c 0 = p.
Proof. unfold between, vadd, vscale, vsub. destruct p as [x y z]. cbn [px py pz]. f_equal; ring. Qed.
Lemma between_1 p c : between p c 1 = c.
Proof. unfold between, vadd, vscale, vsub. destruct c as [x y z]. cbn [px py pz]. f_equal; ring. Qed.
Lemma along_unit p c t : norm (vsub c p) <> 0 -> along (Ray p (unit_dir (vsub c p))) t = between p c (t / norm (vsub c p)).
Proof. intros N. unfold along, between, unit_dir, vadd, vscale. cbn [r_origin r_dir px py pz]. f_equal; field; exact N. Qed.
Lemma norm_zero_eq v : norm v = 0 -> v = Pt 0 0 0.
Proof.
  intros H. destruct v as [x y z]. unfold norm, dot in H. cbn [px py pz] in H. assert (Q : x * x + y * y + z * z = 0) by (apply sqrt_eq_0; [nra|exact H]).
  assert (x = 0) by nra. assert (y = 0) by nra. assert (z = 0) by nra. subst. reflexivity.
Qed.
Lemma norm_pos v : 0 <= norm v.
Proof. unfold norm. apply sqrt_pos. Qed.

(** A successful cast through an open mesh: no triangle that the ray meets is hit on an edge (unless one is touched). *)
Lemma open_loop_edges r l : forall dist inside b, open_loop r l dist inside = Cast b true -> (exists i q, In (i, q) l /\ touches r q) \/ forall i q, In (i, q) l -> ~ grazes r q.
Proof.
  induction l as [|[i q] l IH]; intros dist inside b E; cbn [open_loop] in E; [right; intros ? ? []|]. assert (K := kind_ok r q).
  assert (Skip : forall d ins, open_loop r l d ins = Cast b true -> ~ grazes r q -> (exists j q', In (j, q') ((i, q) :: l) /\ touches r q') \/ forall j q', In (j, q') ((i, q) :: l) -> ~ grazes r q').
  { intros d ins El G. destruct (IH d ins b El) as [(j & q' & I & T)|H]; [left; exists j, q'; split; [right; exact I|exact T]|]. right. intros j q' [Ej|I]; [injection Ej as <- <-; exact G|apply (H j q' I)]. }
  destruct (ray_triangle r q) as [| |t u v back]; cbn [kind] in K.
  - apply (Skip _ _ E). tauto.
  - apply (Skip _ _ E). intros (t & u & v & (S & _) & _). contradiction.
  - destruct K as (_ & K). destruct (rltb t zerotol); [left; exists i, q; split; [left; reflexivity|tauto]|]. destruct (on_edge u v); [discriminate|].
    destruct (rltb t dist); apply (Skip _ _ E); tauto.
Qed.
Lemma open_cast_edges junk tris g r b : (Z.of_nat (length tris) <= 2 ^ 30)%Z -> tris <> [] -> make_query junk tris false = Some g -> cast_ray g r = Cast b true ->
  (exists q, In q tris /\ touches r q) \/ forall q t, In q tris -> 0 <= t -> in_triangle q (along r t) -> ~ grazes r q.
Proof.
  intros Hl Hn Eg E. destruct (make_query_ok junk tris false Hl) as (g' & Eg' & _ & Ec & _). assert (g' = g) as -> by congruence.
  destruct (candidates_ok junk tris false g (ray_box r) (meets r) Hl Hn Eg) as (c & Ec' & _ & H1 & H2); [intros x y H (t & Ht & Hp); exists t; auto|apply ray_box_complete|].
  unfold cast_ray in E. rewrite Ec', Ec in E. destruct (open_loop_edges r c _ _ _ E) as [(i & q & I & T)|H].
  - left. exists q. split; [eapply nth_error_In, (H1 i q I)|exact T].
  - right. intros q t I Ht X. apply In_nth_error in I as (i & I). apply (H i q). apply H2; [exact I|]. exists t. split; [exact Ht|]. apply in_triangle_box, X.
Qed.

Section Sight.
Variable tris sec : list (tri pt).
Variable junk : nat -> node RA.
Variable g : gquery.
Variables lo hi p : pt.
Variable tol : R.
Variable deep : pt -> Prop.
Hypothesis Cl : closed tris.
Hypothesis Ow : outward tris.
Hypothesis Ln : (Z.of_nat (length sec) <= 2 ^ 30)%Z.
Hypothesis Eg : make_query junk sec false = Some g.
Hypothesis Pc : forall s, In s sec -> exists q, In q tris /\ piece_of s q.
Hypothesis Cv : forall q x, In q tris -> in_triangle q x -> deep x -> exists s, In s sec /\ in_triangle s x.
Hypothesis See : forall c s, in_box lo hi tol c -> 0 <= s <= 1 -> off_surface tris (between p c s) \/ deep (between p c s).
Hypothesis Off : off_surface tris p.
Hypothesis Far : forall d s, In s sec -> norm d = 1 -> ~ touches (Ray p d) s.
Hypothesis Near : forall c, in_box lo hi tol c -> norm (vsub c p) < maxd.
Hypothesis Tp : / 10 ^ 12 <= tol.
Hypothesis Sh : well_seen sec lo hi p tol.

Lemma tol_zero : 10 * zerotol <= 100 * tol.
Proof. unfold zerotol. assert (0 < / 10 ^ 12) by (apply Rinv_0_lt_compat, pow_lt; lra). replace (10 * / 10 ^ 14) with (/ 10 * / 10 ^ 12) by field. lra. Qed.
Lemma not_centred q : In q sec -> norm (vsub (tri_center q) p) <> 0.
Proof.
  intros I N. apply norm_zero_eq in N. destruct (Pc q I) as (q' & I' & P). apply (Off q' I'). apply (piece_in q q' p P).
  assert (E : tri_center q = p). { destruct (tri_center q) as [a b c], p as [x y z]. unfold vsub in N. cbn [px py pz] in N. injection N as N1 N2 N3. f_equal; lra. } rewrite <- E. apply centre_in.
Qed.
Lemma target_looked q : In q sec -> (is_target p tol q = true <-> looked_at p tol q).
Proof.
  intros I. assert (N := not_centred q I). unfold is_target, looked_at, centred. destruct (Req_EM_T _ 0) as [Z|_]; [contradiction|]. cbn [orb].
  rewrite andb_true_iff, negb_true_iff, rltb_true. unfold is_parallel. rewrite rltb_false.
  set (r := Ray p (unit_dir (vsub (tri_center q) p))). change (dot (vsub (P2 q) (P1 q)) (cross (r_dir r) (vsub (P3 q) (P1 q)))) with (det_of r q).
  rewrite det_normal, Rabs_Ropp. unfold r. cbn [r_dir]. unfold large. tauto.
Qed.

(** Before the first crossing the line of sight is off the surface. *)
Section Cast.
Variable q : tri pt.
Hypothesis Iq : In q sec.
Hypothesis Lq : looked_at p tol q.
Let c := tri_center q.
Let D := norm (vsub c p).
Let r := Ray p (unit_dir (vsub c p)).
Lemma D_pos : 0 < D.
Proof. assert (N := not_centred q Iq). assert (H := norm_pos (vsub c p)). unfold D, c in *. lra. Qed.
Lemma dir_unit : norm (r_dir r) = 1.
Proof. apply unit_norm. intros E. assert (P := D_pos). unfold D in P. rewrite E in P. unfold norm, dot in P. cbn [px py pz] in P. replace (0 * 0 + 0 * 0 + 0 * 0) with 0 in P by ring. rewrite sqrt_0 in P. lra. Qed.
Lemma hit_kind s t : In s sec -> ~ grazes r s -> 0 <= t <= D -> in_triangle s (along r t) -> crosses r s t.
Proof.
  intros Is Ng Ht X. destruct (Sh q Iq Lq) as [B St]. fold c r in St. assert (Dp := D_pos).
  assert (S : steep r s). { apply (St s (t / D) Is); [split; [apply Rmult_le_pos; [lra|apply Rlt_le, Rinv_0_lt_compat, Dp] | apply (Rmult_le_reg_r D); [exact Dp|]; unfold Rdiv; rewrite Rmult_assoc, Rinv_l by lra; lra]|].
    unfold D. rewrite <- along_unit; [exact X|unfold D in Dp; lra]. }
  apply in_triangle_same in X. destruct (corner_plane s _ X) as (u & v & U & V & W & E).
  assert (Zp := zerotol_pos). assert (R : reaches r s t u v) by (split; [exact S|]; split; [exact E|]; unfold accurate; repeat split; lra).
  assert (T : zerotol <= t). { destruct (Rle_dec zerotol t) as [T|T]; [exact T|]. exfalso. apply (Far _ s Is dir_unit). exists t, u, v. split; [exact R|lra]. }
  assert (G : ~ (u < zerotol \/ v < zerotol \/ 1 - zerotol < u + v)) by (intros G; apply Ng; exists t, u, v; auto).
  split; [exact S|]. split; [exact T|]. exists u, v. split; [exact E|]. lra.
Qed.
Lemma along_D : along r D = c.
Proof. assert (Dp := D_pos). unfold r. rewrite along_unit by (unfold D in Dp; lra). fold D. unfold Rdiv. rewrite Rinv_r by lra. apply between_1. Qed.
Lemma cast_right b : cast_ray g r = Cast b true -> (b = true <-> surrounded tris p).
Proof.
  intros E. assert (Dp := D_pos). assert (Zp := zerotol_pos). destruct (Sh q Iq Lq) as [B _]. fold c in B.
  assert (Hn : sec <> []) by (intros Z; rewrite Z in Iq; destruct Iq).
  assert (NT : ~ exists q, In q sec /\ touches r q) by (intros (s & I & T); exact (Far _ s I dir_unit T)).
  destruct (open_cast_edges junk sec g r b Ln Hn Eg E) as [T|Ng]; [contradiction|].
  assert (Cq : crosses r q D). { apply hit_kind; [exact Iq| |lra|rewrite along_D; apply centre_in]. apply (Ng q D Iq); [lra|]. rewrite along_D. apply centre_in. }
  assert (K := open_cast_ok junk sec g r Ln Hn Eg). rewrite E in K. destruct K as [(_ & T)|[(_ & K)|(s & t & Is & Cs & Bk & Mn)]]; [contradiction| |].
  { exfalso. assert (X := K q D Iq Cq). assert (Y := Near c B). unfold D in X. lra. }
  assert (tD : t <= D) by (apply (Mn q D Iq Cq)). destruct Cs as (St & Tz & u & v & Ep & U & V & W).
  (* the way to the first crossing *)
  assert (Way : forall t', 0 <= t' < t -> off_surface tris (along r t')).
  { intros t' Ht q' I' X. assert (Sb : 0 <= t' / D <= 1). { split; [apply Rmult_le_pos; [lra|apply Rlt_le, Rinv_0_lt_compat, Dp]|]. apply (Rmult_le_reg_r D); [exact Dp|]. unfold Rdiv. rewrite Rmult_assoc, Rinv_l by lra. lra. }
    assert (Ea : along r t' = between p c (t' / D)) by (unfold r, D; apply along_unit; unfold D in Dp; lra).
    destruct (See c (t' / D) B Sb) as [O|De]; rewrite <- Ea in *; [exact (O q' I' X)|]. destruct (Cv q' _ I' X De) as (s' & Is' & X').
    assert (Cs' : crosses r s' t') by (apply hit_kind; [exact Is'|apply (Ng s' t' Is'); [lra|exact X']|lra|exact X']). assert (Y := Mn s' t' Is' Cs'). lra. }
  assert (Side : forall e, 0 < e < t -> (surrounded tris p <-> surrounded tris (along r (t - e)))).
  { intros e He. apply same_side; [exact Cl|]. intros x Hx. replace (between p (along r (t - e)) x) with (along r (x * (t - e))).
    - apply Way. split; [apply Rmult_le_pos; lra|]. assert (x * (t - e) <= 1 * (t - e)) by (apply Rmult_le_compat_r; lra). lra.
    - unfold along, between, r, vadd, vscale, vsub. cbn [r_origin r_dir px py pz]. f_equal; ring. }
  destruct (Pc s Is) as (q' & I' & Pq).
  assert (Nn : normal_dir s <> Pt 0 0 0). { intros Z. unfold steep in St. rewrite Z in St. unfold dot in St. cbn [px py pz] in St. rewrite !Rmult_0_r, !Rplus_0_l, Rabs_R0 in St. lra. }
  destruct (piece_interior s q' u v Pq Nn ltac:(lra) ltac:(lra) ltac:(lra)) as (u' & v' & U' & V' & W' & Ex).
  destruct Pq as (_ & _ & _ & f & F & Ef). change (area2 s) with (normal_dir s) in Ef. change (area2 q') with (normal_dir q') in Ef.
  assert (Ed : dot (r_dir r) (normal_dir s) = f * dot (normal_dir q') (r_dir r)) by (rewrite Ef; unfold dot, vscale; cbn [px py pz]; ring).
  assert (Ed0 : dot (r_dir r) (normal_dir s) <> 0) by (intros Z; unfold steep in St; rewrite Z, Rabs_R0 in St; lra).
  destruct (Rlt_dec 0 (dot (r_dir r) (normal_dir s))) as [Ps|Ng'].
  - assert (Pd : 0 < dot (normal_dir q') (r_dir r)) by (destruct (Rlt_dec 0 (dot (normal_dir q') (r_dir r))); [assumption|nra]).
    destruct (Ow q' u' v' (r_dir r) I' U' V' W' Pd) as (e0 & E0 & H). set (e := Rmin e0 t / 2). assert (Rmin e0 t <= e0) by apply Rmin_l. assert (Rmin e0 t <= t) by apply Rmin_r. assert (0 < Rmin e0 t) by (apply Rmin_glb_lt; lra).
    assert (He : 0 < e < e0) by (unfold e; lra). destruct (H e He) as [S1 _]. split; [intros _|intros _; apply Bk, Ps].
    apply (Side e); [unfold e; lra|]. replace (along r (t - e)) with (walk (plane_point q' u' v') (r_dir r) (- e)); [exact S1|]. rewrite <- Ex, <- Ep. unfold walk, along, vadd, vscale. cbn [px py pz]. f_equal; ring.
  - assert (Pd : 0 < dot (normal_dir q') (vscale (-1) (r_dir r))). { assert (X : dot (normal_dir q') (vscale (-1) (r_dir r)) = - dot (normal_dir q') (r_dir r)) by (unfold dot, vscale; cbn [px py pz]; ring). rewrite X. nra. }
    destruct (Ow q' u' v' (vscale (-1) (r_dir r)) I' U' V' W' Pd) as (e0 & E0 & H). set (e := Rmin e0 t / 2). assert (Rmin e0 t <= e0) by apply Rmin_l. assert (Rmin e0 t <= t) by apply Rmin_r. assert (0 < Rmin e0 t) by (apply Rmin_glb_lt; lra).
    assert (He : 0 < e < e0) by (unfold e; lra). destruct (H e He) as [_ S1]. split; [intros Bt; exfalso; apply Bk in Bt; lra|]. intros Sp. exfalso. apply S1.
    apply (Side e) in Sp; [|unfold e; lra]. replace (walk (plane_point q' u' v') (vscale (-1) (r_dir r)) e) with (along r (t - e)); [exact Sp|]. rewrite <- Ex, <- Ep. unfold walk, along, vadd, vscale. cbn [px py pz]. f_equal; ring.
Qed.
End Cast.

(** The answer of the section: right, if one cast counts. *)
Lemma section_right b : on_bounded_side junk sec lo hi p = Some b -> tol = relative_tol lo hi (/ 10 ^ 12) ->
  (b = true -> surrounded tris p) /\ (surrounded tris p -> decisive sec p tol -> b = true).
Proof.
  intros E Et. destruct (on_bounded_side_ok junk sec lo hi p Ln) as (g' & res & Eg' & Er & pre & rest & Es & N10 & Nr & Rs). assert (g' = g) as -> by congruence. assert (res = b) as -> by congruence. rewrite <- Et in *.
  assert (All : forall q b', In q sec -> is_target p tol q = true -> aimed_cast g p q = Cast b' true -> (b' = true <-> surrounded tris p)).
  { intros q b' I T A. apply (target_looked q I) in T. unfold aimed_cast, centred in A. destruct (Req_EM_T _ 0) as [Z|_] in A; [exfalso; exact (not_centred q I Z)|]. exact (cast_right q I T b' A). }
  set (votes := section_outcomes g p tol pre) in *.
  assert (V : forall x, In x votes -> exists q, In q sec /\ is_target p tol q = true /\ x = aimed_cast g p q).
  { intros x I. apply in_map_iff in I as (q & <- & I). apply filter_In in I as [I T]. exists q. split; [rewrite Es; apply in_or_app; left; exact I|]. auto. }
  split.
  - intros Bt. apply Rs in Bt. destruct (List.filter said_inside votes) as [|x l] eqn:F; [unfold count in Bt; rewrite F in Bt; cbn in Bt; lia|].
    assert (Ix : In x (List.filter said_inside votes)) by (rewrite F; left; reflexivity). apply filter_In in Ix as [Ix Sx]. destruct (V x Ix) as (q & I & T & ->).
    destruct (aimed_cast g p q) as [[|] [|]|] eqn:A; try discriminate. apply (All q true I T A). reflexivity.
  - intros Sp (q & I & Lq & Ng). apply Rs.
    assert (Hn : sec <> []) by (intros Z; rewrite Z in I; destruct I).
    assert (Pos : (0 < count succeeded votes)%nat).
    { destruct Nr as [->|N]; [|unfold votes in *; lia]. rewrite app_nil_r in Es. subst pre. assert (T : is_target p tol q = true) by (apply target_looked; assumption).
      assert (A : exists b', aimed_cast g p q = Cast b' true).
      { unfold aimed_cast, centred. destruct (Req_EM_T _ 0) as [Z|_]; [exfalso; exact (not_centred q I Z)|]. assert (K := open_cast_ok junk sec g (Ray p (unit_dir (vsub (tri_center q) p))) Ln Hn Eg).
        destruct (cast_ray _ _) as [b' [|]|]; [exists b'; reflexivity|destruct K as (_ & s & Is & G); exfalso; exact (Ng s Is G)|contradiction]. }
      destruct A as (b' & A). assert (Iv : In (Cast b' true) (List.filter succeeded votes)). { apply filter_In. split; [|reflexivity]. rewrite <- A. apply in_map. apply filter_In. auto. }
      unfold count. destruct (List.filter succeeded votes); [destruct Iv|cbn; lia]. }
    assert (Eq : List.filter said_inside votes = List.filter succeeded votes).
    { apply filter_ext_in. intros x Ix. destruct (V x Ix) as (q' & I' & T & ->). destruct (aimed_cast g p q') as [[|] [|]|] eqn:A; try reflexivity. assert (X := proj2 (All q' false I' T A) Sp). discriminate. }
    unfold count in *. rewrite Eq. lia.
Qed.
End Sight.
