(** Properties C50, C51, C52, C59 and C60: the geometric tests, the ray casts through a mesh and the votes on their outcomes. *)
From Coq Require Import Reals Lra Psatz List Arith Bool ZArith Lia.
From Verif Require Import Geo MappingModel TrimmedQuadModel MeshModel MeshGeoModel StlModel SearchModel SearchProofs SearchInsert SearchQuery SearchProps GeoQueryModel SatProofs SatMain GeoQueryProofs RayProofs CastProofs.
Import ListNotations.
Local Open Scope R_scope.

Definition box_meets_triangle (lo up : pt) (q : tri pt) (tol : R) : bool := box_triangle lo up (P1 q) (P2 q) (P3 q) tol.

Lemma box_triangle_exact lo up q tol : (forall i, at_ i lo + tol <= at_ i up - tol) ->
  (box_meets_triangle lo up q tol = true <-> exists x, in_triangle q x /\ in_box lo up tol x).
Proof.
  intros H. split; [apply box_triangle_complete, H | intros (x & H1 & H2); eapply box_triangle_sound; eassumption].
Qed.

(** *** C50 *)
(** The test of a box, shrunk by the tolerance, against a triangle is exact (if something is left of the box). *)
Theorem C50_exact : forall lo up q tol, (forall i, at_ i lo + tol <= at_ i up - tol) ->
  (box_meets_triangle lo up q tol = true <-> exists x, in_triangle q x /\ in_box lo up tol x).
Proof. exact box_triangle_exact. Qed.
Print Assumptions C50_exact.

(** It never misses an intersection, whatever box and tolerance. *)
Theorem C50_no_miss : forall lo up q tol x, in_triangle q x -> in_box lo up tol x -> box_meets_triangle lo up q tol = true.
Proof. exact box_triangle_sound. Qed.
Print Assumptions C50_no_miss.

(** The triangles of a mesh that meet a box: exactly those, each once; the tree loses none. *)
Theorem C50_ids : forall junk tris closed g l u tol, (Z.of_nat (length tris) <= 2 ^ 30)%Z -> tris <> [] -> make_query junk tris closed = Some g ->
  0 <= tol -> (forall i, at_ i l + tol <= at_ i u - tol) ->
  exists ids, intersected_ids g l u tol = Some ids /\ NoDup ids /\
    forall i, In i ids <-> exists q x, nth_error tris i = Some q /\ in_triangle q x /\ in_box l u tol x.
Proof. exact intersected_ids_ok. Qed.
Print Assumptions C50_ids.

(** Does the mesh meet a box? *)
Theorem C50_any : forall junk tris closed g l u tol, (Z.of_nat (length tris) <= 2 ^ 30)%Z -> tris <> [] -> make_query junk tris closed = Some g ->
  0 <= tol -> (forall i, at_ i l + relative_tol l u tol <= at_ i u - relative_tol l u tol) ->
  exists b, do_intersect g l u tol = Some b /\
    (b = true <-> exists q x, In q tris /\ in_triangle q x /\ in_box l u (relative_tol l u tol) x).
Proof. exact do_intersect_ok. Qed.
Print Assumptions C50_any.

Lemma intersection_state_ok junk tris closed g dirs l u tol : (Z.of_nat (length tris) <= 2 ^ 30)%Z -> tris <> [] -> make_query junk tris closed = Some g ->
  0 <= tol -> (forall i, at_ i l + relative_tol l u tol <= at_ i u - relative_tol l u tol) ->
  let met := exists q x, In q tris /\ in_triangle q x /\ in_box l u (relative_tol l u tol) x in
  let centre := vscale (1/2) (vadd u l) in
  (intersection_state g dirs l u tol = Some LTrimmed <-> met) /\
  (intersection_state g dirs l u tol = Some LInside <-> ~ met /\ is_inside g dirs centre = Some true) /\
  (intersection_state g dirs l u tol = Some LOutside <-> ~ met /\ is_inside g dirs centre = Some false) /\
  (intersection_state g dirs l u tol = None <-> ~ met /\ is_inside g dirs centre = None).
Proof.
  intros Hl Hn Eg Ht Hb met centre. destruct (do_intersect_ok junk tris closed g l u tol Hl Hn Eg Ht Hb) as (b & E & Hm).
  fold met in Hm. unfold intersection_state. rewrite E. fold centre. destruct b.
  - assert (M : met) by (apply Hm; reflexivity). repeat split; intros; try discriminate; try tauto.
  - assert (M : ~ met) by (intros M; apply Hm in M; discriminate).
    destruct (is_inside g dirs centre) as [[ | ] | ]; repeat split; intros; try discriminate; try tauto; destruct H; try discriminate; tauto.
Qed.
(** The classification of an element: trimmed exactly if its (shrunk) box meets the mesh, otherwise by its centre. *)
Theorem C50_classify : forall junk tris closed g dirs l u tol, (Z.of_nat (length tris) <= 2 ^ 30)%Z -> tris <> [] -> make_query junk tris closed = Some g ->
  0 <= tol -> (forall i, at_ i l + relative_tol l u tol <= at_ i u - relative_tol l u tol) ->
  let met := exists q x, In q tris /\ in_triangle q x /\ in_box l u (relative_tol l u tol) x in
  let centre := vscale (1/2) (vadd u l) in
  (intersection_state g dirs l u tol = Some LTrimmed <-> met) /\
  (intersection_state g dirs l u tol = Some LInside <-> ~ met /\ is_inside g dirs centre = Some true) /\
  (intersection_state g dirs l u tol = Some LOutside <-> ~ met /\ is_inside g dirs centre = Some false) /\
  (intersection_state g dirs l u tol = None <-> ~ met /\ is_inside g dirs centre = None).
Proof. exact intersection_state_ok. Qed.
Print Assumptions C50_classify.

(** A tolerance of more than half the thickness: nothing is left of the box but an intersection is reported. *)
Definition thin_tri : tri pt := Tri (Pt (-4) 10 10) (Pt 6 11 10) (Pt 1 9 11).
Ltac abs_num := repeat match goal with |- context [Rabs ?x] => first [rewrite (Rabs_right x) by lra | rewrite (Rabs_left x) by lra] end.
Theorem C50_thick_refuted : box_meets_triangle (Pt 0 0 0) (Pt 2 20 20) thin_tri 2 = true /\
  ~ exists x, in_triangle thin_tri x /\ in_box (Pt 0 0 0) (Pt 2 20 20) 2 x.
Proof.
  split.
  - unfold box_meets_triangle, box_triangle. apply forallb_forall. intros a Ha. apply check_axis_passes.
    unfold sat_axes in Ha. repeat destruct Ha as [<- | Ha]; try contradiction; unfold passes, band, some3, radius, dot, cross, vsub;
      cbn [thin_tri P1 P2 P3 unit_of px py pz]; abs_num; split; lra.
  - intros (x & _ & H). specialize (H AX). cbn in H. lra.
Qed.
Print Assumptions C50_thick_refuted.

(** *** C51 *)
(** No triangle box that the ray meets is missed, whatever direction (zero components included) and box. *)
Theorem C51_no_miss : forall r b, meets r b -> ray_box r b = true.
Proof. exact ray_box_complete. Qed.
Print Assumptions C51_no_miss.

(** The test is exact unless the ray is parallel to a face and starts in its plane. *)
Theorem C51_exact : forall r b, proper RA b -> r_dir r <> Pt 0 0 0 -> off_faces r b -> (ray_box r b = true <-> meets r b).
Proof. intros r b H1 H2 H3. split; [apply ray_box_sound; assumption | apply ray_box_complete]. Qed.
Print Assumptions C51_exact.

Lemma positive_exact r b : proper RA b -> 0 < px (r_dir r) -> 0 < py (r_dir r) -> 0 < pz (r_dir r) -> (ray_box r b = true <-> meets r b).
Proof.
  intros H Hx Hy Hz. apply C51_exact; [exact H | intros E; rewrite E in Hx; cbn in Hx; lra | ].
  unfold off_faces. repeat split; lra.
Qed.
Theorem C51_positive : forall r b, proper RA b -> 0 < px (r_dir r) -> 0 < py (r_dir r) -> 0 < pz (r_dir r) -> (ray_box r b = true <-> meets r b).
Proof. exact positive_exact. Qed.
Print Assumptions C51_positive.

(** Otherwise it may report a box that the ray does not meet. *)
Definition face_ray : ray := Ray (Pt 1 5 (-1)) (Pt 0 0 1).
Definition unit_rbox : rbox := rbox_of (Pt 0 0 0) (Pt 1 1 1).
Lemma face_ray_box : ray_box face_ray unit_rbox = true.
Proof.
  rewrite ray_box_slabs. destruct (within_bounds _ _ _) eqn:W; [reflexivity | ]. clear W. unfold slab_answer, low_t, up_t.
  assert (N0 : neg_sign 0 = false) by (destruct (neg_sign 0) eqn:E; [apply neg_sign_spec in E; lra | reflexivity]).
  assert (N1 : neg_sign 1 = false) by (destruct (neg_sign 1) eqn:E; [apply neg_sign_spec in E; lra | reflexivity]).
  cbn [face_ray unit_rbox rbox_of r_origin r_dir px py pz lo up vec_of vx vy vz]. rewrite N0, N1. cbn [negb]. unfold einv, emul.
  repeat match goal with
  | |- context [Req_EM_T ?a ?b] => destruct (Req_EM_T a b); [try (exfalso; lra) | try (exfalso; lra)]
  | |- context [Rlt_dec ?a ?b] => destruct (Rlt_dec a b); [try (exfalso; lra) | try (exfalso; lra)]
  end.
  all: cbn; unfold emax, emin, rltb; cbn; unfold rltb.
  all: repeat match goal with |- context [Rlt_dec ?a ?b] => destruct (Rlt_dec a b); [try (exfalso; lra) | try (exfalso; lra)]; cbn end; try reflexivity.
Qed.
Theorem C51_face_refuted : proper RA unit_rbox /\ r_dir face_ray <> Pt 0 0 0 /\ ray_box face_ray unit_rbox = true /\ ~ meets face_ray unit_rbox.
Proof.
  split; [unfold proper; rewrite !leq_RA; cbn; lra | ]. split; [intros E; injection E; lra | ]. split; [exact face_ray_box | ].
  intros (t & _ & H). apply point_along in H. cbn in H. lra.
Qed.
Print Assumptions C51_face_refuted.

(** *** C59 *)
(** The ray/triangle test: the reported parameters are the intersection with the plane of the triangle, it is reported exactly if
    it is in the triangle and ahead of the origin (up to the tolerance), and the facing is that of the normal. *)
Theorem C59_ray_triangle : forall r q,
  (ray_triangle r q = Parallel <-> Rabs (dot (r_dir r) (normal_dir q)) < 10 * zerotol) /\
  (forall t u v back, ray_triangle r q = Hit t u v back <->
    10 * zerotol <= Rabs (dot (r_dir r) (normal_dir q)) /\ along r t = plane_point q u v /\ accurate t u v /\ u <= 1 + zerotol /\
    (back = true <-> 0 < dot (r_dir r) (normal_dir q))).
Proof. exact ray_triangle_ok. Qed.
Print Assumptions C59_ray_triangle.

(** *** C60 *)
(** A cast through a mesh marked as closed: if it succeeds, then inside means that an odd number of (non-degenerate) triangles of
    the whole mesh is crossed, or outside since the origin is on a triangle; it fails only at an edge; it is undefined only if
    a triangle is parallel to the ray. *)
Theorem C60_closed : forall junk tris g r, (Z.of_nat (length tris) <= 2 ^ 30)%Z -> tris <> [] -> make_query junk tris true = Some g ->
  match cast_ray g r with
  | CastUndefined => exists q, In q tris /\ large q /\ ~ steep r q
  | Cast inside true => (inside = false /\ exists q, In q tris /\ large q /\ touches r q) \/
      exists ids, NoDup ids /\ (forall i, In i ids <-> exists q t, nth_error tris i = Some q /\ large q /\ crosses r q t) /\
        inside = Nat.odd (length ids)
  | Cast inside false => inside = false /\ exists q, In q tris /\ large q /\ grazes r q
  end.
Proof. exact closed_cast_ok. Qed.
Print Assumptions C60_closed.

(** A cast through a mesh that is not closed: always defined; the answer is the facing of the nearest crossed triangle. *)
Theorem C60_open : forall junk tris g r, (Z.of_nat (length tris) <= 2 ^ 30)%Z -> tris <> [] -> make_query junk tris false = Some g ->
  match cast_ray g r with
  | CastUndefined => False
  | Cast inside true => (inside = false /\ exists q, In q tris /\ touches r q) \/
      (inside = false /\ forall q t, In q tris -> crosses r q t -> maxd <= t) \/
      (exists q t, In q tris /\ crosses r q t /\ (inside = true <-> 0 < dot (r_dir r) (normal_dir q)) /\
        forall q' t', In q' tris -> crosses r q' t' -> t <= t')
  | Cast inside false => inside = false /\ exists q, In q tris /\ grazes r q
  end.
Proof. exact open_cast_ok. Qed.
Print Assumptions C60_open.

(** The answer of a cast in general position: no triangle parallel, touched or hit on an edge. *)
Lemma closed_general junk tris g r ids : (Z.of_nat (length tris) <= 2 ^ 30)%Z -> tris <> [] -> make_query junk tris true = Some g ->
  (forall q, In q tris -> large q -> steep r q /\ ~ touches r q /\ ~ grazes r q) ->
  NoDup ids -> (forall i, In i ids <-> exists q t, nth_error tris i = Some q /\ large q /\ crosses r q t) ->
  cast_ray g r = Cast (Nat.odd (length ids)) true.
Proof.
  intros Hl Hn Eg Hg Hd Hi. pose proof (closed_cast_ok junk tris g r Hl Hn Eg) as K. destruct (cast_ray g r) as [inside [ | ] | ].
  - destruct K as [(_ & q & Hq & L & T) | (ids' & Hd' & Hi' & ->)]; [exfalso; destruct (Hg q Hq L) as (_ & N & _); exact (N T) | ].
    assert (L : length ids' = length ids) by (apply Nat.le_antisymm; (apply NoDup_incl_length; [assumption | ]); intros i H; [apply Hi, Hi', H | apply Hi', Hi, H]).
    rewrite L. reflexivity.
  - destruct K as (_ & q & Hq & L & T). exfalso. destruct (Hg q Hq L) as (_ & _ & N). exact (N T).
  - destruct K as (q & Hq & L & T). exfalso. apply T, (Hg q Hq L).
Qed.
Theorem C60_general_position : forall junk tris g r ids, (Z.of_nat (length tris) <= 2 ^ 30)%Z -> tris <> [] -> make_query junk tris true = Some g ->
  (forall q, In q tris -> large q -> steep r q /\ ~ touches r q /\ ~ grazes r q) ->
  NoDup ids -> (forall i, In i ids <-> exists q t, nth_error tris i = Some q /\ large q /\ crosses r q t) ->
  cast_ray g r = Cast (Nat.odd (length ids)) true.
Proof. exact closed_general. Qed.
Print Assumptions C60_general_position.

(** *** C52 *)
Definition in_range (tris : list (tri pt)) (p : pt) : Prop :=
  forall i, (exists q v, In q tris /\ In v [P1 q; P2 q; P3 q] /\ at_ i v <= at_ i p) /\
            (exists q v, In q tris /\ In v [P1 q; P2 q; P3 q] /\ at_ i p <= at_ i v).
Definition finite_mesh (tris : list (tri pt)) : Prop := forall q v i, In q tris -> In v [P1 q; P2 q; P3 q] -> - maxd <= at_ i v <= maxd.
Lemma vertex_of_corners v q : vertex_of RA v (corners q) <-> exists w, In w [P1 q; P2 q; P3 q] /\ v = vec_of w.
Proof.
  unfold vertex_of, corners. cbn [In]. split.
  - intros [-> | [-> | ->]]; [exists (P1 q) | exists (P2 q) | exists (P3 q)]; auto.
  - intros (w & [<- | [<- | [<- | []]]] & ->); auto.
Qed.
Definition coord_of (i : axis) : vec R -> R := match i with AX => @vx R | AY => @vy R | AZ => @vz R end.
Lemma coord_in i : In (coord_of i) (coords RA). Proof. destruct i; cbn; auto. Qed.
Lemma coord_vec i p : coord_of i (vec_of p) = at_ i p. Proof. destruct i; reflexivity. Qed.
Lemma coords_axis c : In c (coords RA) -> exists i, c = coord_of i.
Proof. cbn. intros [<- | [<- | [<- | []]]]; [exists AX | exists AY | exists AZ]; reflexivity. Qed.
Lemma bounds_in_range junk tris closed g p : (Z.of_nat (length tris) <= 2 ^ 30)%Z -> tris <> [] -> finite_mesh tris -> make_query junk tris closed = Some g ->
  (within_bounds RA (g_bounds g) (vec_of p) = true <-> in_range tris p).
Proof.
  intros Hl Hn Hf Eg. destruct (C49_bounds RA RA_ordered junk no_bounds (map corners tris) (vec_of p)) as (t & b & Eb & H).
  - rewrite map_length. exact Hl.
  - destruct tris; [congruence | discriminate].
  - intros t v c Ht Hv Hc. apply in_map_iff in Ht. destruct Ht as (q & <- & Hq). apply vertex_of_corners in Hv. destruct Hv as (w & Hw & ->).
    apply coords_axis in Hc. destruct Hc as (i & ->). rewrite !leq_RA. specialize (Hf q w i Hq Hw). rewrite coord_vec. destruct i; cbn [coord_of no_bounds lo up vx vy vz]; lra.
  - unfold make_query in Eg. rewrite Eb in Eg. injection Eg as <-. cbn [g_bounds]. rewrite H. unfold in_range. split.
    + intros K i. destruct (K _ (coord_in i)) as ((t1 & v1 & H1 & H2 & H3) & (t2 & v2 & H4 & H5 & H6)).
      apply in_map_iff in H1. destruct H1 as (q1 & <- & H1). apply in_map_iff in H4. destruct H4 as (q2 & <- & H4).
      apply vertex_of_corners in H2, H5. destruct H2 as (w1 & H2 & ->). destruct H5 as (w2 & H5 & ->).
      rewrite leq_RA, !coord_vec in H3, H6. split; [exists q1, w1; auto | exists q2, w2; auto].
    + intros K c Hc. apply coords_axis in Hc. destruct Hc as (i & ->). destruct (K i) as ((q1 & w1 & H1 & H2 & H3) & (q2 & w2 & H4 & H5 & H6)).
      split; [exists (corners q1), (vec_of w1) | exists (corners q2), (vec_of w2)]; rewrite leq_RA, !coord_vec; (split; [apply in_map; assumption | ]);
        (split; [apply vertex_of_corners; eauto | assumption]).
Qed.

Lemma is_inside_ok junk tris closed g dirs p : (Z.of_nat (length tris) <= 2 ^ 30)%Z -> tris <> [] -> finite_mesh tris -> make_query junk tris closed = Some g ->
  (~ in_range tris p -> is_inside g dirs p = Some false) /\
  (in_range tris p ->
    (is_inside g dirs p = Some true <->
      exists n, (n <= 100)%nat /\ ~ In CastUndefined (outcomes g p dirs n) /\ count succeeded (outcomes g p dirs n) = 5%nat /\
        (3 <= count said_inside (outcomes g p dirs n))%nat) /\
    (is_inside g dirs p = None <->
      exists n, (n < 100)%nat /\ nth_error (outcomes g p dirs (S n)) n = Some CastUndefined /\ (count succeeded (outcomes g p dirs n) < 5)%nat)).
Proof.
  intros Hl Hn Hf Eg. pose proof (bounds_in_range junk tris closed g p Hl Hn Hf Eg) as B. unfold is_inside.
  destruct (within_bounds RA (g_bounds g) (vec_of p)) eqn:W.
  2:{ split; [reflexivity | ]. intros H. apply B in H. discriminate. }
  split; [intros N; exfalso; apply N, B; reflexivity | ]. intros _.
  assert (Mono : forall n m, (n <= m)%nat -> (exists l, outcomes g p dirs m = outcomes g p dirs n ++ l)).
  { intros n m H. unfold outcomes. replace m with (n + (m - n))%nat by lia. rewrite seq_app, map_app. eexists. reflexivity. }
  assert (Cm : forall f n m, (n <= m)%nat -> (count f (outcomes g p dirs n) <= count f (outcomes g p dirs m))%nat).
  { intros f n m H. destruct (Mono n m H) as (l & ->). unfold count. rewrite filter_app, app_length. lia. }
  assert (Len : forall n, length (outcomes g p dirs n) = n) by (intros n; unfold outcomes; rewrite map_length, seq_length; reflexivity).
  assert (Step : forall n, exists c, outcomes g p dirs (S n) = outcomes g p dirs n ++ [c] /\ nth_error (outcomes g p dirs (S n)) n = Some c).
  { intros n. eexists. assert (E : outcomes g p dirs (S n) = outcomes g p dirs n ++ [cast_ray g (Ray p (unit_dir (dirs n)))]).
    { unfold outcomes. rewrite seq_S, map_app. reflexivity. }
    split; [exact E | ]. rewrite E, nth_error_app2 by (rewrite Len; lia). rewrite Len, Nat.sub_diag. reflexivity. }
  assert (Und : forall n m, (n < m)%nat -> nth_error (outcomes g p dirs (S n)) n = Some CastUndefined -> In CastUndefined (outcomes g p dirs m)).
  { intros n m H E. destruct (Mono (S n) m H) as (l & ->). apply in_or_app. left. eapply nth_error_In, E. }
  (* two prefixes with five successes contain the same votes *)
  assert (Same : forall n m, (n <= m)%nat -> count succeeded (outcomes g p dirs n) = count succeeded (outcomes g p dirs m) ->
    count said_inside (outcomes g p dirs n) = count said_inside (outcomes g p dirs m)).
  { intros n m H. destruct (Mono n m H) as (l & ->). unfold count. rewrite !filter_app, !app_length. intros E.
    assert (E0 : length (List.filter succeeded l) = 0%nat) by lia. clear - E0.
    assert (G : List.filter said_inside l = []).
    { induction l as [ | c l IH]; [reflexivity | ]. cbn in E0 |- *. destruct c as [[ | ] [ | ] | ]; cbn in *; try discriminate; auto. }
    rewrite G. cbn. lia. }
  pose proof (inside_loop_ok g p 100 dirs 0 0%Z ltac:(lia)) as K. rewrite !Nat.add_0_l in K.
  destruct (inside_loop g p 100 dirs 0 0) as [[ | ] | ].
  - destruct K as (n & H1 & H2 & H3 & H4). split; [ | split; [discriminate | ]].
    + split; [intros _ | reflexivity]. exists n. split; [exact H1 | ]. split; [exact H2 | ]. split; [exact H3 | lia].
    + intros (m & Hm & Hu & Hs). exfalso. destruct (le_lt_dec n m) as [L | L]; [pose proof (Cm succeeded n m L); lia | ].
      apply H2, (Und m n L Hu).
  - split; [split; [discriminate | ] | split; [discriminate | ]].
    + intros (m & Hm & Hu & Hs & Hi). exfalso. destruct K as [(n & H1 & H2 & H3 & H4) | (H1 & H2)].
      * destruct (le_lt_dec n m) as [L | L]; [pose proof (Same n m L ltac:(lia)); lia | pose proof (Same m n ltac:(lia) ltac:(lia)); lia].
      * pose proof (Cm succeeded m 100%nat Hm). lia.
    + intros (m & Hm & Hu & Hs). exfalso. destruct K as [(n & H1 & H2 & H3 & H4) | (H1 & H2)].
      * destruct (le_lt_dec n m) as [L | L]; [pose proof (Cm succeeded n m L); lia | apply H2, (Und m n L Hu)].
      * apply H1, (Und m 100%nat Hm Hu).
  - destruct K as (n & H1 & H2 & H3). split; [split; [discriminate | ] | split; [intros _ | reflexivity]].
    + intros (m & Hm & Hu & Hs & Hi). exfalso. destruct (le_lt_dec m n) as [L | L]; [pose proof (Cm succeeded m n L); lia | apply Hu, (Und n m L H2)].
    + exists n. auto.
Qed.

(** The inside test of a point: outside the range of the vertices it is false.  Otherwise at most 100 rays are cast, and the answer
    is true exactly if at least three of the first five successful casts say inside; it is undefined exactly if an undefined
    cast comes before the fifth success. *)
Theorem C52_votes : forall junk tris closed g dirs p, (Z.of_nat (length tris) <= 2 ^ 30)%Z -> tris <> [] -> finite_mesh tris -> make_query junk tris closed = Some g ->
  (~ in_range tris p -> is_inside g dirs p = Some false) /\
  (in_range tris p ->
    (is_inside g dirs p = Some true <->
      exists n, (n <= 100)%nat /\ ~ In CastUndefined (outcomes g p dirs n) /\ count succeeded (outcomes g p dirs n) = 5%nat /\
        (3 <= count said_inside (outcomes g p dirs n))%nat) /\
    (is_inside g dirs p = None <->
      exists n, (n < 100)%nat /\ nth_error (outcomes g p dirs (S n)) n = Some CastUndefined /\ (count succeeded (outcomes g p dirs n) < 5)%nat)).
Proof. exact is_inside_ok. Qed.
Print Assumptions C52_votes.

Lemma bounded_casts g p dirs dirs' : (forall k, (k < 100)%nat -> dirs k = dirs' k) -> is_inside g dirs p = is_inside g dirs' p.
Proof. intros H. unfold is_inside. destruct (within_bounds _ _ _); [apply inside_loop_ext, H | reflexivity]. Qed.
(** No more than 100 random directions are used. *)
Theorem C52_bounded : forall g p dirs dirs', (forall k, (k < 100)%nat -> dirs k = dirs' k) -> is_inside g dirs p = is_inside g dirs' p.
Proof. exact bounded_casts. Qed.
Print Assumptions C52_bounded.

Lemma on_bounded_side_ok junk clipped l u p : (Z.of_nat (length clipped) <= 2 ^ 30)%Z ->
  exists g res, make_query junk clipped false = Some g /\ on_bounded_side junk clipped l u p = Some res /\
    exists pre rest, clipped = pre ++ rest /\
      let votes := section_outcomes g p (relative_tol l u (/ 10 ^ 12)) pre in
      (count succeeded votes <= 10)%nat /\ (rest = [] \/ count succeeded votes = 10%nat) /\
      (res = true <-> (count succeeded votes < 2 * count said_inside votes)%nat).
Proof.
  intros Hl. destruct (make_query_ok junk clipped false Hl) as (g & Eg & _). exists g. unfold on_bounded_side. rewrite Eg.
  destruct clipped as [ | q cl].
  - exists false. split; [reflexivity | ]. split; [reflexivity | ]. exists [], []. split; [reflexivity | ]. cbn. split; [lia | ]. split; [auto | ]. split; [discriminate | lia].
  - cbv iota. assert (Hn : q :: cl <> []) by discriminate. set (clipped := q :: cl) in *.
    destruct (section_loop_ok g p (relative_tol l u (/ 10 ^ 12))) with (tris := clipped) (s := 0%nat) (v := 0%Z) as (res & pre & rest & H1 & H2 & H3 & H4 & H5).
    { intros q'. apply (aimed_defined junk clipped g p q' Hl Hn Eg). }
    { lia. }
    exists res. split; [reflexivity | ]. split; [exact H1 | ]. exists pre, rest. split; [exact H2 | ]. cbv zeta. rewrite Nat.add_0_l in H3, H4.
    split; [exact H3 | ]. split; [exact H4 | ]. rewrite H5. lia.
Qed.
(** The test on the clipped section of one element is always defined: the strict majority of (at most ten) successful casts. *)
Theorem C52_section : forall junk clipped l u p, (Z.of_nat (length clipped) <= 2 ^ 30)%Z ->
  exists g res, make_query junk clipped false = Some g /\ on_bounded_side junk clipped l u p = Some res /\
    exists pre rest, clipped = pre ++ rest /\
      let votes := section_outcomes g p (relative_tol l u (/ 10 ^ 12)) pre in
      (count succeeded votes <= 10)%nat /\ (rest = [] \/ count succeeded votes = 10%nat) /\
      (res = true <-> (count succeeded votes < 2 * count said_inside votes)%nat).
Proof. exact on_bounded_side_ok. Qed.
Print Assumptions C52_section.

(** *** Examples *)
Definition tetra : list (tri pt) :=
  [Tri (Pt 1 0 0) (Pt 0 1 0) (Pt 0 0 1); Tri (Pt 0 0 0) (Pt 0 1 0) (Pt 1 0 0); Tri (Pt 0 0 0) (Pt 1 0 0) (Pt 0 0 1); Tri (Pt 0 0 0) (Pt 0 0 1) (Pt 0 1 0)].
Definition tetra_ray : ray := Ray (Pt (1/8) (1/8) (1/8)) (Pt (1/3) (2/3) (2/3)).
Lemma zerotol_small : 0 < zerotol < / 1000.
Proof. split; [apply zerotol_pos | ]. unfold zerotol. apply Rinv_lt_contravar; [ | ]; lra. Qed.
Example C50_example : (forall i, at_ i (Pt 0 0 0) + / 10 <= at_ i (Pt 1 1 1) - / 10) /\
  in_triangle (Tri (Pt (-1) (1/2) (1/2)) (Pt 2 (1/2) (1/2)) (Pt 0 3 (1/2))) (Pt (1/2) (1/2) (1/2)) /\ in_box (Pt 0 0 0) (Pt 1 1 1) (/ 10) (Pt (1/2) (1/2) (1/2)).
Proof.
  split; [intros i; destruct i; cbn; lra | ]. split.
  - exists (1/2), (1/2), 0. repeat (split; [lra | ]). intros i. destruct i; cbn; lra.
  - intros i. destruct i; cbn; lra.
Qed.
Example C51_example : proper RA unit_rbox /\ meets (Ray (Pt (-1) (-1) (-1)) (Pt 1 2 1)) unit_rbox /\ ~ meets (Ray (Pt (-1) (-1) (-1)) (Pt 1 3 1)) unit_rbox.
Proof.
  split; [unfold proper; rewrite !leq_RA; cbn; lra | ]. split.
  - exists 1. split; [lra | ]. apply point_along. cbn. lra.
  - intros (t & Ht & H). apply point_along in H. cbn in H. lra.
Qed.
Lemma tetra_large q : In q tetra -> large q.
Proof.
  intros H. unfold large, tri_area. assert (Z : 100 * zerotol < 1/2 * 1) by (pose proof zerotol_small; lra).
  assert (N : forall v, 1 <= px v * px v + py v * py v + pz v * pz v -> 1 <= norm v).
  { intros v Hv. unfold norm. rewrite <- sqrt_1 at 1. apply sqrt_le_1_alt. exact Hv. }
  eapply Rlt_le_trans; [exact Z | ]. apply Rmult_le_compat_l; [lra | ]. apply N.
  cbn in H. repeat destruct H as [<- | H]; try contradiction; cbn; lra.
Qed.
Lemma tetra_steep q : In q tetra -> steep tetra_ray q.
Proof.
  intros H. unfold steep. pose proof zerotol_small. cbn in H.
  repeat destruct H as [<- | H]; try contradiction; unfold normal_dir, dot, cross, vsub; cbn [tetra_ray r_dir P1 P2 P3 px py pz]; abs_num; lra.
Qed.
Lemma pt_eq a b : a = b -> px a = px b /\ py a = py b /\ pz a = pz b.
Proof. intros ->. auto. Qed.
Lemma tetra_hits q t u v : In q tetra -> along tetra_ray t = plane_point q u v -> - / 1000 <= t -> q = Tri (Pt 1 0 0) (Pt 0 1 0) (Pt 0 0 1) /\ t = 3/8 /\ u = 3/8 /\ v = 3/8.
Proof.
  intros H E Ht. apply pt_eq in E. cbn in H.
  repeat destruct H as [<- | H]; try contradiction; cbn in E; [split; [reflexivity | lra] | exfalso; lra | exfalso; lra | exfalso; lra].
Qed.
(** A tetrahedron and a point inside: the ray crosses exactly one triangle. *)
Example C60_example : (Z.of_nat (length tetra) <= 2 ^ 30)%Z /\ tetra <> [] /\
  (forall q, In q tetra -> large q -> steep tetra_ray q /\ ~ touches tetra_ray q /\ ~ grazes tetra_ray q) /\
  (forall i, In i [0%nat] <-> exists q t, nth_error tetra i = Some q /\ large q /\ crosses tetra_ray q t).
Proof.
  pose proof zerotol_small as Zs. split; [cbn; lia | ]. split; [discriminate | ]. split.
  - intros q Hq _. split; [apply tetra_steep, Hq | ]. split.
    + intros (t & u & v & (_ & E & (A & _) & _) & T). destruct (tetra_hits q t u v Hq E) as (_ & -> & _); lra.
    + intros (t & u & v & (_ & E & (A & _) & _) & T & G). destruct (tetra_hits q t u v Hq E) as (_ & -> & -> & ->); lra.
  - intros i. split.
    + intros [<- | []]. eexists. exists (3/8). split; [reflexivity | ]. split; [apply tetra_large; left; reflexivity | ].
      split; [apply tetra_steep; left; reflexivity | ]. split; [lra | ]. exists (3/8), (3/8). split; [ | lra].
      unfold along, plane_point, vadd, vscale, vsub. cbn [tetra_ray r_origin r_dir P1 P2 P3 px py pz]. f_equal; lra.
    + intros (q & t & Hq & _ & (_ & Ht & u & v & E & _)). assert (Hin := nth_error_In _ _ Hq).
      destruct (tetra_hits q t u v Hin E) as (-> & _); [lra | ].
      destruct i as [ | [ | [ | [ | i]]]]; cbn in Hq; [left; reflexivity | | | | destruct i; discriminate]; exfalso; injection Hq; lra.
Qed.
(** So the point is reported inside, whatever the tree looks like, if this direction is drawn five times. *)
Example C52_example : forall junk g, make_query junk tetra true = Some g -> is_inside g (fun _ => r_dir tetra_ray) (r_origin tetra_ray) = Some true.
Proof.
  intros junk g Eg. destruct C60_example as (Hl & Hn & Hg & Hi).
  pose proof (closed_general junk tetra g tetra_ray [0%nat] Hl Hn Eg Hg ltac:(constructor; [intros [] | constructor]) Hi) as C.
  assert (Un : unit_dir (r_dir tetra_ray) = r_dir tetra_ray).
  { unfold unit_dir. replace (norm (r_dir tetra_ray)) with 1; [cbn; f_equal; lra | ]. unfold norm. cbn.
    replace (1 / 3 * (1 / 3) + 2 / 3 * (2 / 3) + 2 / 3 * (2 / 3)) with 1 by lra. symmetry. apply sqrt_1. }
  assert (Ec : forall k : nat, cast_ray g (Ray (r_origin tetra_ray) (unit_dir ((fun _ : nat => r_dir tetra_ray) k))) = Cast true true).
  { intros k. cbv beta. rewrite Un. exact C. }
  assert (Md : 1 <= maxd).
  { unfold maxd. assert (1 <= 2 ^ 1023) by (apply pow_R1_Rle; lra). assert (/ 2 ^ 52 <= 1) by (rewrite <- Rinv_1; apply Rinv_le_contravar; [lra | apply pow_R1_Rle; lra]). nra. }
  assert (Hf : finite_mesh tetra).
  { intros q v i Hq Hv. cbn in Hq. repeat destruct Hq as [<- | Hq]; try contradiction; cbn in Hv;
      repeat destruct Hv as [<- | Hv]; try contradiction; destruct i; cbn [at_ px py pz]; lra. }
  destruct (C52_votes junk tetra true g (fun _ => r_dir tetra_ray) (r_origin tetra_ray) Hl Hn Hf Eg) as (_ & H). apply H.
  - intros i. split.
    + exists (Tri (Pt 0 0 0) (Pt 0 1 0) (Pt 1 0 0)), (Pt 0 0 0). cbn [In tetra P1 P2 P3]. split; [auto | ]. split; [auto | ]. destruct i; cbn; lra.
    + exists (Tri (Pt 1 0 0) (Pt 0 1 0) (Pt 0 0 1)), (match i with AX => Pt 1 0 0 | AY => Pt 0 1 0 | AZ => Pt 0 0 1 end). cbn [In tetra P1 P2 P3].
      split; [auto | ]. split; [destruct i; auto | ]. destruct i; cbn; lra.
  - exists 5%nat. split; [lia | ]. unfold outcomes. cbn [seq map]. rewrite !(Ec 0%nat). split; [intros K; repeat destruct K as [K | K]; try discriminate; exact K | ]. cbn. lia.
Qed.
(** A single triangle that the ray is parallel to, in its plane: the cast through the mesh reads variables that are not set. *)
Definition slice : tri pt := Tri (Pt 0 0 0) (Pt 1 0 1) (Pt 0 0 1).
Definition slice_ray : ray := Ray (Pt (1/8) 0 (1/4)) (Pt (/2) 0 (/2)).
Theorem C60_parallel_refuted : forall junk g, make_query junk [slice] true = Some g -> cast_ray g slice_ray = CastUndefined.
Proof.
  intros junk g Eg. assert (Hl : (Z.of_nat (length [slice]) <= 2 ^ 30)%Z) by (cbn; lia).
  destruct (candidates_ok junk [slice] true g (ray_box slice_ray) (meets slice_ray) Hl ltac:(discriminate) Eg) as (c & E & Hd & H1 & H2).
  - intros a b H (t & Ht & Hp). exists t. auto.
  - apply ray_box_complete.
  - assert (Ec : g_closed g = true) by (destruct (make_query_ok junk [slice] true Hl) as (g' & Eg' & _ & K & _); congruence).
    assert (In0 : In (0%nat, slice) c).
    { apply (H2 0%nat slice eq_refl). exists 0. split; [lra | ]. apply in_triangle_box. exists (3/4), (1/8), (1/8). repeat (split; [lra | ]).
      intros i. destruct i; cbn; lra. }
    unfold cast_ray. rewrite E, Ec. destruct c as [ | [i q] c]; [contradiction | ].
    assert (Q : q = slice) by (destruct (H1 i q (or_introl eq_refl)) as (K & _); destruct i as [ | [ | i]]; cbn in K; congruence). subst q.
    cbn [closed_loop]. assert (A : rltb (100 * zerotol) (tri_area slice) = true).
    { apply rltb_true. unfold tri_area, norm. pose proof zerotol_small.
      replace (px _ * px _ + py _ * py _ + pz _ * pz _) with 1 by (cbn; ring). rewrite sqrt_1. lra. }
    rewrite A. assert (P : ray_triangle slice_ray slice = Parallel).
    { apply C59_ray_triangle. pose proof zerotol_pos. unfold normal_dir, dot, cross, vsub. cbn [slice slice_ray r_dir P1 P2 P3 px py pz].
      rewrite (Rabs_pos_eq) by lra. lra. }
    rewrite P. reflexivity.
Qed.
Print Assumptions C60_parallel_refuted.
