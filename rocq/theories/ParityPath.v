(** Points that are joined by a segment off the surface are on the same side. *)
From Coq Require Import Reals List Arith Bool ZArith Permutation Lia Lra Psatz.
From Verif Require Import Geo MappingModel TrimmedQuadModel MeshModel MeshGeoModel MeshBoxProofs SatProofs GeoQueryProofs RayProofs ParitySign ParitySpec ParityGeo ParityDir ParityMain.
Import ListNotations.
Local Open Scope R_scope.

(** *** One triangle *)
Lemma first_zero4 w x y z w' x' y' z' : 0 < w -> 0 < x -> 0 < y -> 0 < z -> (w + w' <= 0 \/ x + x' <= 0 \/ y + y' <= 0 \/ z + z' <= 0) ->
  exists s, 0 <= s <= 1 /\ 0 <= w + s * w' /\ 0 <= x + s * x' /\ 0 <= y + s * y' /\ 0 <= z + s * z' /\ (w + s * w' = 0 \/ x + s * x' = 0 \/ y + s * y' = 0 \/ z + s * z' = 0).
Proof.
  intros W X Y Z N. set (m := Rmax (Rmax (- w' / w) (- x' / x)) (Rmax (- y' / y) (- z' / z))).
  assert (M0 : - w' / w <= m) by (unfold m; eapply Rle_trans; [apply Rmax_l|apply Rmax_l]). assert (M1 : - x' / x <= m) by (unfold m; eapply Rle_trans; [apply Rmax_r|apply Rmax_l]).
  assert (M2 : - y' / y <= m) by (unfold m; eapply Rle_trans; [apply Rmax_l|apply Rmax_r]). assert (M3 : - z' / z <= m) by (unfold m; eapply Rle_trans; [apply Rmax_r|apply Rmax_r]).
  assert (P : 1 <= m).
  { assert (G : forall v v', 0 < v -> v + v' <= 0 -> 1 <= - v' / v). { intros v v' V H. apply (Rmult_le_reg_r v); [exact V|]. unfold Rdiv. rewrite Rmult_assoc, Rinv_l by lra. lra. }
    destruct N as [H|[H|[H|H]]]; [eapply Rle_trans; [|exact M0]|eapply Rle_trans; [|exact M1]|eapply Rle_trans; [|exact M2]|eapply Rle_trans; [|exact M3]]; apply G; assumption. }
  exists (/ m). assert (I : 0 < / m) by (apply Rinv_0_lt_compat; lra). assert (I1 : / m <= 1) by (rewrite <- Rinv_1; apply Rinv_le_contravar; lra).
  assert (G : forall v v', 0 < v -> - v' / v <= m -> 0 <= v + / m * v').
  { intros v v' V H. assert (- v' <= m * v). { apply (Rmult_le_compat_r v) in H; [|lra]. replace (- v' / v * v) with (- v') in H by (field; lra). exact H. }
    apply (Rmult_le_reg_l m); [lra|]. rewrite Rmult_0_r. replace (m * (v + / m * v')) with (m * v + v') by (field; lra). lra. }
  assert (Q : forall v v', 0 < v -> - v' / v = m -> v + / m * v' = 0).
  { intros v v' V H. assert (- v' = m * v). { rewrite <- H. field. lra. } replace v' with (- (m * v)) by lra. field. lra. }
  split; [lra|]. split; [apply G; assumption|]. split; [apply G; assumption|]. split; [apply G; assumption|]. split; [apply G; assumption|].
  assert (C : - w' / w = m \/ - x' / x = m \/ - y' / y = m \/ - z' / z = m).
  { assert (K : forall u v, Rmax u v = u \/ Rmax u v = v) by (intros u v; unfold Rmax; destruct (Rle_dec u v); auto).
    unfold m. destruct (K (Rmax (- w' / w) (- x' / x)) (Rmax (- y' / y) (- z' / z))) as [E|E]; rewrite E.
    - destruct (K (- w' / w) (- x' / x)) as [F|F]; rewrite F; auto.
    - destruct (K (- y' / y) (- z' / z)) as [F|F]; rewrite F; auto. }
  destruct C as [C|[C|[C|C]]]; [left|right; left|right; right; left|right; right; right]; apply Q; assumption.
Qed.
(** The point at s between p and p'. *)
Definition between (p p' : pt) (s : R) : pt := vadd p (vscale s (vsub p' p)).
Definition det_sum (p d : pt) (q : tri pt) : R := det3 d (vsub (P2 q) p) (vsub (P3 q) p) + det3 (vsub (P1 q) p) d (vsub (P3 q) p) + det3 (vsub (P1 q) p) (vsub (P2 q) p) d.
Lemma det_sum_free p p' d q : det_sum p d q = det_sum p' d q.
Proof. unfold det_sum. vec. ring. Qed.
Lemma between_dets p p' s d q :
  let D f := f (between p p' s) = f p + s * (f p' - f p) in
  D (fun p => det3 (vsub (P1 q) p) (vsub (P2 q) p) (vsub (P3 q) p)) /\ D (fun p => det3 d (vsub (P2 q) p) (vsub (P3 q) p)) /\
  D (fun p => det3 (vsub (P1 q) p) d (vsub (P3 q) p)) /\ D (fun p => det3 (vsub (P1 q) p) (vsub (P2 q) p) d).
Proof. intros D. unfold D. clear D. cbv beta. unfold between. vec. repeat split; ring. Qed.
(** On its side of the triangle and through it: with the sign k of the facing. *)
Lemma through_zero tris p d q k : avoids tris p d -> In q tris -> ~ in_triangle q p -> (k = 1 \/ k = -1) ->
  0 <= k * det3 (vsub (P1 q) p) (vsub (P2 q) p) (vsub (P3 q) p) -> 0 <= k * det3 d (vsub (P2 q) p) (vsub (P3 q) p) ->
  0 <= k * det3 (vsub (P1 q) p) d (vsub (P3 q) p) -> 0 <= k * det3 (vsub (P1 q) p) (vsub (P2 q) p) d -> 0 < k * det_sum p d q ->
  0 < k * det3 (vsub (P1 q) p) (vsub (P2 q) p) (vsub (P3 q) p) /\ 0 < k * det3 d (vsub (P2 q) p) (vsub (P3 q) p) /\
  0 < k * det3 (vsub (P1 q) p) d (vsub (P3 q) p) /\ 0 < k * det3 (vsub (P1 q) p) (vsub (P2 q) p) d.
Proof.
  intros A Hq O Hk H0 H1 H2 H3 S. pose proof (apart_off q p O) as AP. unfold det_sum in S. set (a := vsub (P1 q) p) in *. set (b := vsub (P2 q) p) in *. set (c := vsub (P3 q) p) in *.
  destruct (Req_dec (det3 a b c) 0) as [Z|Z].
  - exfalso. assert (E : k * det3 d b c + k * det3 a d c + k * det3 a b d = 0); [|lra]. apply (apart_pos a b c); try assumption.
    pose proof (cramer a b c d) as K. rewrite Z in K. apply pt_inv in K. revert K. generalize (det3 d b c), (det3 a d c), (det3 a b d). clear. intros x y z K. vec. destruct K as (K1 & K2 & K3).
    apply pt_ext; cbn [px py pz]; [transitivity (k * (0 * px d)); [rewrite <- K1|]|transitivity (k * (0 * py d)); [rewrite <- K2|]|transitivity (k * (0 * pz d)); [rewrite <- K3|]]; ring.
  - assert (P : 0 < k * det3 a b c) by (destruct Hk as [-> | ->]; lra). pose proof (combo_det a b c d Z) as K.
    assert (Q : forall x, 0 <= k * x -> 0 <= x / det3 a b c).
    { intros x X. replace (x / det3 a b c) with (k * x * / (k * det3 a b c)) by (field; split; [exact Z|destruct Hk; lra]). apply Rmult_le_pos; [exact X|]. left. apply Rinv_0_lt_compat, P. }
    destruct (combo_rim tris p d q _ _ _ A Hq (Q _ H1) (Q _ H2) (Q _ H3) K) as (Y1 & Y2 & Y3).
    assert (B : forall x, 0 < x / det3 a b c -> 0 < k * x).
    { intros x X. replace (k * x) with (x / det3 a b c * (k * det3 a b c)) by (field; exact Z). apply Rmult_lt_0_compat; assumption. }
    auto.
Qed.
Lemma pierces_dets tris p d q : avoids tris p d -> In q tris -> (pierces p d q <->
  exists k, (k = 1 \/ k = -1) /\ 0 < k * det3 (vsub (P1 q) p) (vsub (P2 q) p) (vsub (P3 q) p) /\ 0 < k * det3 d (vsub (P2 q) p) (vsub (P3 q) p) /\
  0 < k * det3 (vsub (P1 q) p) d (vsub (P3 q) p) /\ 0 < k * det3 (vsub (P1 q) p) (vsub (P2 q) p) d).
Proof.
  intros A Hq. rewrite (pierces_seen tris p d q A Hq). unfold seen, cone. rewrite sig4_nonzero. split.
  - intros [H|H]; [exists 1|exists (-1)]; lra.
  - intros (k & [-> | ->] & H); lra.
Qed.
Lemma pierces_along tris p p' d q : In q tris -> (forall s, 0 <= s <= 1 -> avoids tris (between p p' s) d /\ ~ in_triangle q (between p p' s)) -> pierces p d q -> pierces p' d q.
Proof.
  intros Hq H P. assert (B0 : between p p' 0 = p) by (unfold between; vec; apply pt_ext; cbn; ring). assert (B1 : between p p' 1 = p') by (unfold between; vec; apply pt_ext; cbn; ring).
  assert (A0 := proj1 (H 0 ltac:(lra))). rewrite B0 in A0. assert (A1 := proj1 (H 1 ltac:(lra))). rewrite B1 in A1.
  apply (pierces_dets tris p d q A0 Hq) in P. destruct P as (k & Hk & H0 & H1 & H2 & H3). apply (pierces_dets tris p' d q A1 Hq). exists k. split; [exact Hk|].
  assert (S : 0 < k * det_sum p d q) by (unfold det_sum; lra).
  set (f0 := fun p => det3 (vsub (P1 q) p) (vsub (P2 q) p) (vsub (P3 q) p)) in *. set (f1 := fun p => det3 d (vsub (P2 q) p) (vsub (P3 q) p)) in *.
  set (f2 := fun p => det3 (vsub (P1 q) p) d (vsub (P3 q) p)) in *. set (f3 := fun p => det3 (vsub (P1 q) p) (vsub (P2 q) p) d) in *.
  change (0 < k * f0 p) in H0. change (0 < k * f1 p) in H1. change (0 < k * f2 p) in H2. change (0 < k * f3 p) in H3. change (0 < k * f0 p' /\ 0 < k * f1 p' /\ 0 < k * f2 p' /\ 0 < k * f3 p').
  destruct (Rlt_dec 0 (k * f0 p')) as [X0|X0]; [destruct (Rlt_dec 0 (k * f1 p')) as [X1|X1]; [destruct (Rlt_dec 0 (k * f2 p')) as [X2|X2]; [destruct (Rlt_dec 0 (k * f3 p')) as [X3|X3]; [auto|]|]|]|];
  (exfalso; destruct (first_zero4 (k * f0 p) (k * f1 p) (k * f2 p) (k * f3 p) (k * (f0 p' - f0 p)) (k * (f1 p' - f1 p)) (k * (f2 p' - f2 p)) (k * (f3 p' - f3 p)) H0 H1 H2 H3) as (s & Hs & G0 & G1 & G2 & G3 & Z); [lra|];
   destruct (between_dets p p' s d q) as (E0 & E1 & E2 & E3); fold f0 in E0; fold f1 in E1; fold f2 in E2; fold f3 in E3; cbv beta in E0, E1, E2, E3;
   destruct (H s Hs) as (As & Os);
   assert (T : forall f : pt -> R, f (between p p' s) = f p + s * (f p' - f p) -> k * f (between p p' s) = k * f p + s * (k * (f p' - f p))) by (intros f ->; ring);
   apply (T f0) in E0; apply (T f1) in E1; apply (T f2) in E2; apply (T f3) in E3;
   destruct (through_zero tris (between p p' s) d q k As Hq Os Hk) as (Y0 & Y1 & Y2 & Y3);
     [change (0 <= k * f0 (between p p' s)); lra|change (0 <= k * f1 (between p p' s)); lra|change (0 <= k * f2 (between p p' s)); lra|change (0 <= k * f3 (between p p' s)); lra|rewrite (det_sum_free _ p); exact S|];
   change (0 < k * f0 (between p p' s)) in Y0; change (0 < k * f1 (between p p' s)) in Y1; change (0 < k * f2 (between p p' s)) in Y2; change (0 < k * f3 (between p p' s)) in Y3; lra).
Qed.
Lemma between_between p p' a b s : between (between p p' a) (between p p' b) s = between p p' (a + s * (b - a)).
Proof. unfold between. vec. apply pt_ext; cbn; ring. Qed.
Lemma crossings_along tris p p' d : (forall s, 0 <= s <= 1 -> avoids tris (between p p' s) d /\ off_surface tris (between p p' s)) -> (odd_crossings tris p d <-> odd_crossings tris p' d).
Proof.
  intros H. assert (E : forall q, In q tris -> (pierces p d q <-> pierces p' d q)).
  { intros q Hq. split; apply (pierces_along tris); try exact Hq.
    - intros s Hs. destruct (H s Hs) as (A & O). split; [exact A|apply O, Hq].
    - intros s Hs. assert (F : between p' p s = between p p' (1 - s)) by (unfold between; vec; apply pt_ext; cbn; ring). rewrite F. destruct (H (1 - s) ltac:(lra)) as (A & O). split; [exact A|apply O, Hq]. }
  assert (G : forall p1 p2, (forall q, In q tris -> (pierces p1 d q <-> pierces p2 d q)) -> odd_crossings tris p1 d -> odd_crossings tris p2 d).
  { intros p1 p2 K (ids & N & I & L). exists ids. split; [exact N|]. split; [|exact L]. intros i. rewrite I. split; intros (q & Hq & P); exists q; (split; [exact Hq|]); apply (K q (nth_error_In _ _ Hq)), P. }
  split; apply G; [exact E|]. intros q Hq. symmetry. apply E, Hq.
Qed.

(** *** A ray that meets no edge still meets none after a small translation *)
Definition pos_part (x : R) : R := (x + Rabs x) / 2.
Lemma pos_part_cases x : (0 <= x /\ pos_part x = x) \/ (x < 0 /\ pos_part x = 0).
Proof. unfold pos_part. destruct (Rlt_dec x 0) as [H|H]; [right; rewrite Rabs_left by exact H; lra|left; rewrite Rabs_right by lra; lra]. Qed.
Lemma edge_clear (x e d : pt) : d <> Pt 0 0 0 -> (forall w t, 0 <= w <= 1 -> 0 <= t -> vadd x (vscale w e) <> vscale t d) ->
  exists m, 0 < m /\ forall w t h, 0 <= w <= 1 -> 0 <= t -> vadd (vadd x (vscale w e)) h = vscale t d -> m <= dot h h.
Proof.
  intros N H. pose proof (dot_self d N) as DD. set (dd := dot d d) in *.
  set (c := fun w => (px x + w * px e) * px d + (py x + w * py e) * py d + (pz x + w * pz e) * pz d).
  set (g := fun w => (px x + w * px e - (((px x + w * px e) * px d + (py x + w * py e) * py d + (pz x + w * pz e) * pz d) + Rabs ((px x + w * px e) * px d + (py x + w * py e) * py d + (pz x + w * pz e) * pz d)) * (/ 2 * / dd * px d)) *
                     (px x + w * px e - (((px x + w * px e) * px d + (py x + w * py e) * py d + (pz x + w * pz e) * pz d) + Rabs ((px x + w * px e) * px d + (py x + w * py e) * py d + (pz x + w * pz e) * pz d)) * (/ 2 * / dd * px d)) +
                     (py x + w * py e - (((px x + w * px e) * px d + (py x + w * py e) * py d + (pz x + w * pz e) * pz d) + Rabs ((px x + w * px e) * px d + (py x + w * py e) * py d + (pz x + w * pz e) * pz d)) * (/ 2 * / dd * py d)) *
                     (py x + w * py e - (((px x + w * px e) * px d + (py x + w * py e) * py d + (pz x + w * pz e) * pz d) + Rabs ((px x + w * px e) * px d + (py x + w * py e) * py d + (pz x + w * pz e) * pz d)) * (/ 2 * / dd * py d)) +
                     (pz x + w * pz e - (((px x + w * px e) * px d + (py x + w * py e) * py d + (pz x + w * pz e) * pz d) + Rabs ((px x + w * px e) * px d + (py x + w * py e) * py d + (pz x + w * pz e) * pz d)) * (/ 2 * / dd * pz d)) *
                     (pz x + w * pz e - (((px x + w * px e) * px d + (py x + w * py e) * py d + (pz x + w * pz e) * pz d) + Rabs ((px x + w * px e) * px d + (py x + w * py e) * py d + (pz x + w * pz e) * pz d)) * (/ 2 * / dd * pz d))).
  assert (Cg : continuity g) by (unfold g; reg).
  destruct (continuity_ab_min g 0 1 ltac:(lra)) as (w0 & M & W0); [intros w _; apply Cg|].
  assert (GE : forall w, g w = dot (vsub (vadd x (vscale w e)) (vscale (pos_part (c w) / dd) d)) (vsub (vadd x (vscale w e)) (vscale (pos_part (c w) / dd) d))).
  { intros w. unfold g, c, pos_part. vec. field. lra. }
  exists (g w0). split.
  - rewrite GE. apply dot_self. intros E. apply (H w0 (pos_part (c w0) / dd)); [lra| |].
    + apply Rmult_le_pos; [|left; apply Rinv_0_lt_compat, DD]. destruct (pos_part_cases (c w0)); lra.
    + apply pt_inv in E. vec. apply pt_ext; cbn; lra.
  - intros w t h Hw Ht E. apply Rle_trans with (g w); [apply M, Hw|]. rewrite GE.
    assert (Hh : h = vsub (vscale t d) (vadd x (vscale w e))) by (apply pt_inv in E; vec; apply pt_ext; cbn; lra). rewrite Hh.
    set (f := vadd x (vscale w e)). assert (Cf : c w = dot f d) by reflexivity. rewrite Cf.
    assert (Q : dot (vsub (vscale t d) f) (vsub (vscale t d) f) = dot f f - 2 * t * dot f d + t * t * dd) by (unfold dd; vec; ring). rewrite Q.
    assert (Q2 : forall k, dot (vsub f (vscale k d)) (vsub f (vscale k d)) = dot f f - 2 * k * dot f d + k * k * dd) by (intros k; unfold dd; vec; ring). rewrite Q2.
    destruct (pos_part_cases (dot f d)) as [[P K]|[P K]]; rewrite K.
    + replace (dot f f - 2 * (dot f d / dd) * dot f d + dot f d / dd * (dot f d / dd) * dd) with (dot f f - dot f d * dot f d / dd) by (field; lra).
      assert (0 <= (t * dd - dot f d) * (t * dd - dot f d) / dd) by (apply Rmult_le_pos; [apply Rle_0_sqr|left; apply Rinv_0_lt_compat, DD]).
      replace ((t * dd - dot f d) * (t * dd - dot f d) / dd) with (t * t * dd - 2 * t * dot f d + dot f d * dot f d / dd) in H0 by (field; lra). lra.
    + unfold Rdiv. rewrite Rmult_0_l. nra.
Qed.
Lemma edge_stable (x e d v : pt) : d <> Pt 0 0 0 -> (forall w t, 0 <= w <= 1 -> 0 <= t -> vadd x (vscale w e) <> vscale t d) ->
  small (fun r => forall h w t, Rabs h < r -> 0 <= w <= 1 -> 0 <= t -> vadd (vadd x (vscale w e)) (vscale h v) <> vscale t d).
Proof.
  intros N H. destruct (edge_clear x e d N H) as (m & M & K). assert (S := small_pos m (- (1 + dot v v)) M).
  assert (S2 := small_and _ _ S (ex_intro _ 1 (conj Rlt_0_1 (fun e H => H)) : small (fun e => 0 < e < 1))). revert S2. apply small_impl.
  intros r [R1 R2] h w t Hh Hw Ht E. specialize (K w t (vscale h v) Hw Ht E). replace (dot (vscale h v) (vscale h v)) with (h * h * dot v v) in K by (vec; ring).
  assert (0 <= dot v v) by (unfold dot; nra). assert (HH : h * h < r). { destruct (Rabs_def2 h r Hh). nra. } nra.
Qed.
(** The edges of a triangle: a start and a difference. *)
Definition rim_edges (q : tri pt) : list (pt * pt) := [(P1 q, vsub (P2 q) (P1 q)); (P1 q, vsub (P3 q) (P1 q)); (P2 q, vsub (P3 q) (P2 q))].
Lemma rim_edge q u v : on_rim u v -> exists x e w, In (x, e) (rim_edges q) /\ 0 <= w <= 1 /\ plane_point q u v = vadd x (vscale w e).
Proof.
  intros (U & V & S & [R|[R|R]]).
  - exists (P1 q), (vsub (P3 q) (P1 q)), v. split; [cbn; auto|]. split; [lra|]. unfold plane_point. rewrite R. vec. apply pt_ext; cbn; ring.
  - exists (P1 q), (vsub (P2 q) (P1 q)), u. split; [cbn; auto|]. split; [lra|]. unfold plane_point. rewrite R. vec. apply pt_ext; cbn; ring.
  - exists (P2 q), (vsub (P3 q) (P2 q)), v. split; [cbn; auto|]. split; [lra|]. unfold plane_point. replace u with (1 - v) by lra. vec. apply pt_ext; cbn; ring.
Qed.
Lemma edge_rim q x e w : In (x, e) (rim_edges q) -> 0 <= w <= 1 -> exists u v, on_rim u v /\ plane_point q u v = vadd x (vscale w e).
Proof.
  intros H W. unfold on_rim. destruct H as [H|[H|[H|[]]]]; injection H as <- <-.
  - exists w, 0. split; [lra|]. unfold plane_point. vec. apply pt_ext; cbn; ring.
  - exists 0, w. split; [lra|]. unfold plane_point. vec. apply pt_ext; cbn; ring.
  - exists (1 - w), w. split; [lra|]. unfold plane_point. vec. apply pt_ext; cbn; ring.
Qed.
Lemma avoids_stable tris p d v : avoids tris p d -> small (fun r => forall h, Rabs h < r -> avoids tris (vadd p (vscale h v)) d).
Proof.
  intros (N & A). assert (S : small (fun r => forall q, In q tris -> forall xe, In xe (rim_edges q) ->
    forall h w t, Rabs h < r -> 0 <= w <= 1 -> 0 <= t -> vadd (vadd (vsub (fst xe) p) (vscale w (snd xe))) (vscale h v) <> vscale t d)).
  { apply small_all. intros q Hq. apply small_all. intros [x e] He. cbn [fst snd]. apply edge_stable; [exact N|]. intros w t W T E.
    destruct (edge_rim q x e w He W) as (u & u' & R & P). apply (A q t u u' Hq T R). rewrite P. apply pt_inv in E. unfold walk. vec. apply pt_ext; cbn; lra. }
  revert S. apply small_impl. intros r H h Hh. split; [exact N|]. intros q t u u' Hq T R W. destruct (rim_edge q u u' R) as (x & e & w & He & Hw & P).
  apply (H q Hq (x, e) He (- h) w t); [rewrite Rabs_Ropp; exact Hh|exact Hw|exact T|]. rewrite P in W. apply pt_inv in W. unfold walk in W. cbn [fst snd]. vec. apply pt_ext; cbn; lra.
Qed.

(** *** Along a segment *)
Lemma between_near p p' s h : between p p' (s + h) = vadd (between p p' s) (vscale h (vsub p' p)).
Proof. unfold between. vec. apply pt_ext; cbn; ring. Qed.
Lemma locally_same tris p p' s : closed tris -> (forall s, 0 <= s <= 1 -> off_surface tris (between p p' s)) -> 0 <= s <= 1 ->
  exists r, 0 < r /\ forall s', 0 <= s' <= 1 -> Rabs (s' - s) < r -> (surrounded tris (between p p' s) <-> surrounded tris (between p p' s')).
Proof.
  intros C O Hs. destruct (some_direction tris (between p p' s) (O s Hs)) as (d & A).
  destruct (small_point _ (avoids_stable tris _ d (vsub p' p) A)) as (r & Hr & St). exists r. split; [exact Hr|]. intros s' Hs' Hd.
  assert (St' : forall x, Rabs (x - s) < r -> avoids tris (between p p' x) d). { intros x Hx. replace x with (s + (x - s)) by ring. rewrite between_near. apply St, Hx. }
  rewrite (surrounded_iff tris (between p p' s) d C (O s Hs) A), (surrounded_iff tris (between p p' s') d C (O s' Hs') (St' s' Hd)).
  apply crossings_along. intros x Hx. rewrite between_between. split.
  - apply St'. replace (s + x * (s' - s) - s) with (x * (s' - s)) by ring. rewrite Rabs_mult, (Rabs_right x) by lra. pose proof (Rabs_pos (s' - s)). nra.
  - apply O. nra.
Qed.
Lemma same_side tris p p' : closed tris -> (forall s, 0 <= s <= 1 -> off_surface tris (between p p' s)) -> (surrounded tris p <-> surrounded tris p').
Proof.
  intros C O. assert (B0 : between p p' 0 = p) by (unfold between; vec; apply pt_ext; cbn; ring). assert (B1 : between p p' 1 = p') by (unfold between; vec; apply pt_ext; cbn; ring).
  set (P := fun s => surrounded tris (between p p' s)). assert (G : P 0 <-> P 1); [|unfold P in G; rewrite B0, B1 in G; exact G].
  set (E := fun s => 0 <= s <= 1 /\ forall s', 0 <= s' <= s -> (P 0 <-> P s')).
  assert (E0 : E 0) by (split; [lra|]; intros s' H; replace s' with 0 by lra; tauto).
  destruct (completeness E) as (m & UB & LUB).
  - exists 1. intros s [H _]. lra.
  - exists 0. exact E0.
  - assert (M0 : 0 <= m) by (apply UB, E0). assert (M1 : m <= 1) by (apply LUB; intros s [H _]; lra).
    destruct (locally_same tris p p' m C O (conj M0 M1)) as (r & Hr & Loc).
    assert (Near : exists s, E s /\ m - r < s).
    { destruct (Rlt_dec (m - r) 0) as [L|L]; [exists 0; split; [exact E0|exact L]|]. apply Classical_Prop.NNPP. intros K. assert (m <= m - r); [|lra]. apply LUB. intros s Es.
      destruct (Rle_dec s (m - r)) as [Q|Q]; [exact Q|]. exfalso. apply K. exists s. split; [exact Es|lra]. }
    destruct Near as (s & (Hs & Es) & Ls). assert (Sm : s <= m) by (apply UB; split; assumption).
    assert (Es' : P 0 <-> P m). { rewrite (Es s ltac:(lra)). symmetry. apply Loc; [lra|]. apply Rabs_def1; lra. }
    set (n := Rmin 1 (m + r / 2)). assert (N1 : n <= 1) by apply Rmin_l. assert (N2 : n <= m + r / 2) by apply Rmin_r. assert (N3 : m <= n) by (unfold n; apply Rmin_glb; lra).
    assert (En : E n).
    { split; [lra|]. intros s' H'. destruct (Rle_dec s' s) as [Q|Q]; [apply Es; lra|]. rewrite Es'. apply Loc; [lra|]. apply Rabs_def1; lra. }
    assert (n <= m) by (apply UB, En). assert (n = 1). { unfold n, Rmin in *. destruct (Rle_dec 1 (m + r / 2)); lra. }
    apply (proj2 En). lra.
Qed.

(** *** Far away *)
Lemma convex_above a b c x v1 v2 v3 : 0 <= a -> 0 <= b -> 0 <= c -> a + b + c = 1 -> x < v1 -> x < v2 -> x < v3 -> x < a * v1 + b * v2 + c * v3.
Proof.
  intros A B C S H1 H2 H3. assert (P1 : 0 <= a * (v1 - x)) by (apply Rmult_le_pos; lra). assert (P2 : 0 <= b * (v2 - x)) by (apply Rmult_le_pos; lra). assert (P3 : 0 <= c * (v3 - x)) by (apply Rmult_le_pos; lra).
  assert (E : a * v1 + b * v2 + c * v3 = x + a * (v1 - x) + b * (v2 - x) + c * (v3 - x)) by (replace c with (1 - a - b) by lra; ring).
  rewrite E. assert (K : 0 < a \/ 0 < b \/ 0 < c) by lra.
  destruct K as [K|[K|K]]; [assert (0 < a * (v1 - x)) by (apply Rmult_lt_0_compat; lra)|assert (0 < b * (v2 - x)) by (apply Rmult_lt_0_compat; lra)|assert (0 < c * (v3 - x)) by (apply Rmult_lt_0_compat; lra)]; lra.
Qed.
Lemma convex_below a b c x v1 v2 v3 : 0 <= a -> 0 <= b -> 0 <= c -> a + b + c = 1 -> v1 < x -> v2 < x -> v3 < x -> a * v1 + b * v2 + c * v3 < x.
Proof. intros A B C S H1 H2 H3. pose proof (convex_above a b c (- x) (- v1) (- v2) (- v3) A B C S). lra. Qed.
Lemma outside_range tris p i : (forall q v, In q tris -> In v (tri_corners q) -> at_ i p < at_ i v) \/ (forall q v, In q tris -> In v (tri_corners q) -> at_ i v < at_ i p) -> closed tris -> ~ surrounded tris p.
Proof.
  intros H C S. assert (O : off_surface tris p).
  { intros q Hq (a & b & c & A & B & Cc & Sm & E). specialize (E i).
    destruct H as [H|H]; pose proof (H q (P1 q) Hq (or_introl eq_refl)); pose proof (H q (P2 q) Hq (or_intror (or_introl eq_refl))); pose proof (H q (P3 q) Hq (or_intror (or_intror (or_introl eq_refl)))); [pose proof (convex_above a b c (at_ i p) (at_ i (P1 q)) (at_ i (P2 q)) (at_ i (P3 q)))|pose proof (convex_below a b c (at_ i p) (at_ i (P1 q)) (at_ i (P2 q)) (at_ i (P3 q)))]; lra. }
  assert (F : exists d, avoids tris p d /\ forall q, In q tris -> ~ pierces p d q).
  { destruct H as [H|H].
    - exists (vscale (-1) (GeoQueryModel.unit_of i)).
      assert (W : forall q t u v, In q tris -> 0 <= t -> 0 <= u -> 0 <= v -> u + v <= 1 -> walk p (vscale (-1) (GeoQueryModel.unit_of i)) t <> plane_point q u v).
      { intros q t u v Hq T U V S1 E. pose proof (H q (P1 q) Hq (or_introl eq_refl)) as H1. pose proof (H q (P2 q) Hq (or_intror (or_introl eq_refl))) as H2. pose proof (H q (P3 q) Hq (or_intror (or_intror (or_introl eq_refl)))) as H3.
        pose proof (convex_above (1 - u - v) u v (at_ i p) (at_ i (P1 q)) (at_ i (P2 q)) (at_ i (P3 q)) ltac:(lra) U V ltac:(ring) H1 H2 H3) as K.
        apply pt_inv in E. unfold walk, plane_point in E. clear H H1 H2 H3. destruct i; cbn [GeoQueryModel.unit_of at_] in *; vec; lra. }
      split; [split|].
      + intros E. destruct i; vec; injection E; lra.
      + intros q t u v Hq T (U & V & S1 & _). apply W; assumption.
      + intros q Hq (t & u & v & T & U & V & S1 & E). apply (W q t u v Hq); try lra. exact E.
    - exists (GeoQueryModel.unit_of i).
      assert (W : forall q t u v, In q tris -> 0 <= t -> 0 <= u -> 0 <= v -> u + v <= 1 -> walk p (GeoQueryModel.unit_of i) t <> plane_point q u v).
      { intros q t u v Hq T U V S1 E. pose proof (H q (P1 q) Hq (or_introl eq_refl)) as H1. pose proof (H q (P2 q) Hq (or_intror (or_introl eq_refl))) as H2. pose proof (H q (P3 q) Hq (or_intror (or_intror (or_introl eq_refl)))) as H3.
        pose proof (convex_below (1 - u - v) u v (at_ i p) (at_ i (P1 q)) (at_ i (P2 q)) (at_ i (P3 q)) ltac:(lra) U V ltac:(ring) H1 H2 H3) as K.
        apply pt_inv in E. unfold walk, plane_point in E. clear H H1 H2 H3. destruct i; cbn [GeoQueryModel.unit_of at_] in *; vec; lra. }
      split; [split|].
      + intros E. destruct i; vec; injection E; lra.
      + intros q t u v Hq T (U & V & S1 & _). apply W; assumption.
      + intros q Hq (t & u & v & T & U & V & S1 & E). apply (W q t u v Hq); try lra. exact E. }
  destruct F as (d & A & F). apply (surrounded_iff tris p d C O A) in S. destruct S as (ids & _ & I & L).
  destruct ids as [|j ids]; [discriminate|]. destruct (proj1 (I j) (or_introl eq_refl)) as (q & Hq & P). apply (F q (nth_error_In _ _ Hq) P).
Qed.
