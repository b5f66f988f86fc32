(** Rays that meet no edge: their crossings do not change if the direction moves a little, and are the triangles that are seen
    in that direction. *)
From Coq Require Import Reals List Arith Bool ZArith Permutation Lia Lra Psatz.
From Verif Require Import Geo MappingModel TrimmedQuadModel MeshModel MeshGeoModel MeshBoxProofs SatProofs GeoQueryProofs RayProofs ParitySign ParitySpec ParityGeo.
Import ListNotations.
Local Open Scope R_scope.

Definition combo (x y z : R) (a b c : pt) : pt := vadd (vscale x a) (vadd (vscale y b) (vscale z c)).
Lemma pt_ext (a b : pt) : px a = px b -> py a = py b -> pz a = pz b -> a = b.
Proof. destruct a, b. cbn. intros -> -> ->. reflexivity. Qed.
Lemma pt_inv (a b : pt) : a = b -> px a = px b /\ py a = py b /\ pz a = pz b.
Proof. intros ->. auto. Qed.

(** A non-negative combination of the vertices in the direction d is a point of the triangle on the ray. *)
Lemma combo_point p d q x y z : d <> Pt 0 0 0 -> 0 <= x -> 0 <= y -> 0 <= z -> combo x y z (vsub (P1 q) p) (vsub (P2 q) p) (vsub (P3 q) p) = d ->
  0 < x + y + z /\ walk p d (/ (x + y + z)) = plane_point q (y / (x + y + z)) (z / (x + y + z)).
Proof.
  intros N X Y Z E. assert (S : 0 < x + y + z).
  { destruct (Rlt_dec 0 (x + y + z)) as [P|P]; [exact P|]. exfalso. apply N. rewrite <- E. assert (x = 0) by lra. assert (y = 0) by lra. assert (z = 0) by lra. subst.
    unfold combo. vec. f_equal; ring. }
  split; [exact S|]. apply pt_inv in E. unfold combo in E. unfold walk, plane_point. vec. destruct E as (E1 & E2 & E3). apply pt_ext; cbn; [rewrite <- E1|rewrite <- E2|rewrite <- E3]; field; lra.
Qed.
Lemma point_combo p d q t u v : 0 < t -> walk p d t = plane_point q u v -> combo ((1 - u - v) / t) (u / t) (v / t) (vsub (P1 q) p) (vsub (P2 q) p) (vsub (P3 q) p) = d.
Proof.
  intros T E. apply pt_inv in E. unfold walk, plane_point in E. unfold combo. vec. destruct E as (E1 & E2 & E3).
  apply pt_ext; cbn; apply (Rmult_eq_reg_l t); try lra.
  - replace (t * px d) with (px (P1 q) + (u * (px (P2 q) - px (P1 q)) + v * (px (P3 q) - px (P1 q))) - px p) by lra. field. lra.
  - replace (t * py d) with (py (P1 q) + (u * (py (P2 q) - py (P1 q)) + v * (py (P3 q) - py (P1 q))) - py p) by lra. field. lra.
  - replace (t * pz d) with (pz (P1 q) + (u * (pz (P2 q) - pz (P1 q)) + v * (pz (P3 q) - pz (P1 q))) - pz p) by lra. field. lra.
Qed.
(** So one of the coefficients is not zero if the ray avoids the edges. *)
Lemma combo_rim tris p d q x y z : avoids tris p d -> In q tris -> 0 <= x -> 0 <= y -> 0 <= z ->
  combo x y z (vsub (P1 q) p) (vsub (P2 q) p) (vsub (P3 q) p) = d -> 0 < x /\ 0 < y /\ 0 < z.
Proof.
  intros (N & A) Hq X Y Z E. destruct (combo_point p d q x y z N X Y Z E) as (S & W). assert (I : 0 < / (x + y + z)) by (apply Rinv_0_lt_compat, S).
  assert (R : ~ (x = 0 \/ y = 0 \/ z = 0)).
  { intros H. apply (A q _ _ _ Hq (Rlt_le _ _ I)) in W; [exact W|]. unfold on_rim, Rdiv. split; [apply Rmult_le_pos; lra|]. split; [apply Rmult_le_pos; lra|].
    assert (F : y * / (x + y + z) + z * / (x + y + z) = 1 - x * / (x + y + z)) by (field; lra). rewrite F.
    assert (0 <= x * / (x + y + z)) by (apply Rmult_le_pos; lra). split; [lra|].
    destruct H as [-> | [-> | ->]]; [right; right; lra|left; ring|right; left; ring]. }
  lra.
Qed.
Lemma det_combo x y z a b c : det3 (combo x y z a b c) b c = x * det3 a b c /\ det3 a (combo x y z a b c) c = y * det3 a b c /\ det3 a b (combo x y z a b c) = z * det3 a b c.
Proof. unfold combo. vec. repeat split; ring. Qed.
Lemma combo_det a b c d : det3 a b c <> 0 -> combo (det3 d b c / det3 a b c) (det3 a d c / det3 a b c) (det3 a b d / det3 a b c) a b c = d.
Proof.
  intros N. pose proof (cramer a b c d) as K. apply pt_inv in K. unfold combo. revert K. generalize (det3 d b c), (det3 a d c), (det3 a b d), (det3 a b c), N. clear. intros x y z D N K. vec. destruct K as (K1 & K2 & K3).
  apply pt_ext; cbn; apply (Rmult_eq_reg_l D); try exact N; [rewrite <- K1|rewrite <- K2|rewrite <- K3]; field; exact N.
Qed.

(** *** A flat triangle *)
Lemma dependent a b c : det3 a b c = 0 -> exists x y z, (x <> 0 \/ y <> 0 \/ z <> 0) /\ combo x y z a b c = Pt 0 0 0.
Proof.
  intros D. assert (K : forall d, combo (det3 d b c) (det3 a d c) (det3 a b d) a b c = Pt 0 0 0).
  { intros d. unfold combo. rewrite (cramer a b c d), D. vec. f_equal; ring. }
  destruct (pt_dec (cross b c) (Pt 0 0 0)) as [Z|Z].
  - destruct (pt_dec b (Pt 0 0 0)) as [->|Nb].
    + exists 0, 1, 0. split; [lra|]. unfold combo. vec. f_equal; ring.
    + exists 0, (- dot b c), (dot b b). split; [right; right; pose proof (dot_self b Nb); lra|].
      apply pt_inv in Z. unfold combo. vec. destruct Z as (Z1 & Z2 & Z3). apply pt_ext; cbn.
      * replace (0 * px a + _) with (py b * (px b * - py c + py b * px c) + pz b * (pz b * px c - px b * pz c)) by ring. replace (px b * - py c + py b * px c) with (- (px b * py c - py b * px c)) by ring. rewrite Z3, Z2. ring.
      * replace (0 * py a + _) with (px b * (px b * py c - py b * px c) - pz b * (py b * pz c - pz b * py c)) by ring. rewrite Z3, Z1. ring.
      * replace (0 * pz a + _) with (py b * (py b * pz c - pz b * py c) - px b * (pz b * px c - px b * pz c)) by ring. rewrite Z1, Z2. ring.
  - pose proof (dot_self _ Z) as P. exists (det3 (cross b c) b c), (det3 a (cross b c) c), (det3 a b (cross b c)). split; [|apply K]. left. unfold det3. lra.
Qed.
Lemma combo_shift s x y z x' y' z' a b c : combo x' y' z' a b c = Pt 0 0 0 -> combo (x + s * x') (y + s * y') (z + s * z') a b c = combo x y z a b c.
Proof.
  intros E. apply pt_inv in E. unfold combo in *. vec. destruct E as (E1 & E2 & E3). f_equal.
  - replace (_ + _) with (x * px a + (y * px b + z * px c) + s * (x' * px a + (y' * px b + z' * px c))) by ring. rewrite E1. ring.
  - replace (_ + _) with (x * py a + (y * py b + z * py c) + s * (x' * py a + (y' * py b + z' * py c))) by ring. rewrite E2. ring.
  - replace (_ + _) with (x * pz a + (y * pz b + z * pz c) + s * (x' * pz a + (y' * pz b + z' * pz c))) by ring. rewrite E3. ring.
Qed.
(** Moving positive coefficients until the first is zero. *)
Lemma first_zero x y z x' y' z' : 0 < x -> 0 < y -> 0 < z -> (x' < 0 \/ y' < 0 \/ z' < 0) ->
  exists s, 0 <= x + s * x' /\ 0 <= y + s * y' /\ 0 <= z + s * z' /\ (x + s * x' = 0 \/ y + s * y' = 0 \/ z + s * z' = 0).
Proof.
  intros X Y Z N. set (m := Rmax (Rmax (- x' / x) (- y' / y)) (- z' / z)).
  assert (M1 : - x' / x <= m) by (unfold m; eapply Rle_trans; [apply Rmax_l|apply Rmax_l]). assert (M2 : - y' / y <= m) by (unfold m; eapply Rle_trans; [apply Rmax_r|apply Rmax_l]). assert (M3 : - z' / z <= m) by (unfold m; apply Rmax_r).
  assert (P : 0 < m).
  { destruct N as [H|[H|H]]; [eapply Rlt_le_trans; [|exact M1]|eapply Rlt_le_trans; [|exact M2]|eapply Rlt_le_trans; [|exact M3]]; apply Rdiv_lt_0_compat; lra. }
  exists (/ m). assert (I : 0 < / m) by (apply Rinv_0_lt_compat, P).
  assert (G : forall w w', 0 < w -> - w' / w <= m -> 0 <= w + / m * w').
  { intros w w' W H. assert (- w' <= m * w). { apply (Rmult_le_compat_r w) in H; [|lra]. replace (- w' / w * w) with (- w') in H by (field; lra). exact H. }
    apply (Rmult_le_reg_l m); [exact P|]. rewrite Rmult_0_r. replace (m * (w + / m * w')) with (m * w + w') by (field; lra). lra. }
  assert (Q : forall w w', 0 < w -> - w' / w = m -> w + / m * w' = 0).
  { intros w w' W H. assert (- w' = m * w). { rewrite <- H. field. lra. } replace w' with (- (m * w)) by lra. field. lra. }
  split; [apply G; assumption|]. split; [apply G; assumption|]. split; [apply G; assumption|].
  assert (C : - x' / x = m \/ - y' / y = m \/ - z' / z = m).
  { unfold m, Rmax. destruct (Rle_dec (- x' / x) (- y' / y)), (Rle_dec _ (- z' / z)); auto. }
  destruct C as [C|[C|C]]; [left|right; left|right; right]; apply Q; assumption.
Qed.
Lemma flat_rim tris p d q x y z : avoids tris p d -> In q tris -> det3 (vsub (P1 q) p) (vsub (P2 q) p) (vsub (P3 q) p) = 0 -> 0 < x -> 0 < y -> 0 < z ->
  combo x y z (vsub (P1 q) p) (vsub (P2 q) p) (vsub (P3 q) p) <> d.
Proof.
  intros A Hq D X Y Z E. destruct (dependent _ _ _ D) as (x' & y' & z' & N & K).
  assert (W : exists s, 0 <= x + s * x' /\ 0 <= y + s * y' /\ 0 <= z + s * z' /\ (x + s * x' = 0 \/ y + s * y' = 0 \/ z + s * z' = 0)).
  { assert (C : (x' < 0 \/ y' < 0 \/ z' < 0) \/ (- x' < 0 \/ - y' < 0 \/ - z' < 0)) by lra. destruct C as [C|C]; [apply first_zero; assumption|].
    destruct (first_zero x y z _ _ _ X Y Z C) as (s & H). exists (- s). replace (- s * x') with (s * - x') by ring. replace (- s * y') with (s * - y') by ring. replace (- s * z') with (s * - z') by ring. exact H. }
  destruct W as (s & W1 & W2 & W3 & W4). destruct (combo_rim tris p d q _ _ _ A Hq W1 W2 W3) as (P1' & P2' & P3'); [rewrite combo_shift; assumption|]. lra.
Qed.

(** *** Crossings and cones *)
Lemma pierces_seen tris p d q : avoids tris p d -> In q tris -> (pierces p d q <-> seen p d q <> 0%Z).
Proof.
  intros A Hq. unfold seen, cone. rewrite sig4_nonzero. set (a := vsub (P1 q) p). set (b := vsub (P2 q) p). set (c := vsub (P3 q) p). split.
  - intros (t & u & v & T & U & V & S & W). pose proof (point_combo p d q t u v T W) as K. fold a b c in K.
    assert (X1 : 0 < (1 - u - v) / t) by (apply Rdiv_lt_0_compat; lra). assert (X2 : 0 < u / t) by (apply Rdiv_lt_0_compat; lra). assert (X3 : 0 < v / t) by (apply Rdiv_lt_0_compat; lra).
    destruct (det_combo ((1 - u - v) / t) (u / t) (v / t) a b c) as (D1 & D2 & D3). rewrite K in D1, D2, D3. rewrite D1, D2, D3.
    assert (D0 : det3 a b c <> 0). { intros Z. apply (flat_rim tris p d q _ _ _ A Hq Z X1 X2 X3). exact K. }
    destruct (Rlt_dec 0 (det3 a b c)) as [P|P].
    + left. repeat split; try assumption; apply Rmult_lt_0_compat; assumption.
    + right. assert (N : det3 a b c < 0) by lra. repeat split; [exact N| | |]; rewrite Rmult_comm; [|apply Ropp_lt_cancel|]; nra.
  - intros H. assert (D0 : det3 a b c <> 0) by lra. pose proof (combo_det a b c d D0) as K.
    assert (Q : forall x y, (0 < x /\ 0 < y) \/ (x < 0 /\ y < 0) -> 0 < y / x).
    { intros x y [[Hx Hy]|[Hx Hy]]; [apply Rdiv_lt_0_compat; assumption|]. replace (y / x) with ((- y) / (- x)) by (field; lra). apply Rdiv_lt_0_compat; lra. }
    assert (X1 := Q (det3 a b c) (det3 d b c) ltac:(lra)). assert (X2 := Q (det3 a b c) (det3 a d c) ltac:(lra)). assert (X3 := Q (det3 a b c) (det3 a b d) ltac:(lra)).
    destruct A as (N & A). destruct (combo_point p d q _ _ _ N (Rlt_le _ _ X1) (Rlt_le _ _ X2) (Rlt_le _ _ X3) K) as (S & W).
    eexists. eexists. eexists. split; [|split; [|split; [|split; [|exact W]]]].
    + apply Rinv_0_lt_compat, S.
    + apply Rdiv_lt_0_compat; assumption.
    + apply Rdiv_lt_0_compat; assumption.
    + rewrite <- Rdiv_plus_distr. apply (Rmult_lt_reg_r _ _ _ S). unfold Rdiv at 1. rewrite Rmult_assoc, Rinv_l by lra. lra.
Qed.
Lemma det_moved a b c d w e : det3 (moved d w e) b c = det3 d b c + e * det3 w b c /\ det3 a (moved d w e) c = det3 a d c + e * det3 a w c /\ det3 a b (moved d w e) = det3 a b d + e * det3 a b w.
Proof. unfold moved. vec. repeat split; ring. Qed.
Lemma seen_stable tris p d q w : avoids tris p d -> In q tris -> small (fun e => seen p (moved d w e) q = seen p d q).
Proof.
  intros A Hq. unfold seen. set (a := vsub (P1 q) p). set (b := vsub (P2 q) p). set (c := vsub (P3 q) p). unfold cone.
  destruct (Req_dec (det3 a b c) 0) as [Z|Z].
  { rewrite Z. apply small_true. intros e. rewrite !sig4_0. reflexivity. }
  pose proof (combo_det a b c d Z) as K.
  assert (NZ : ~ ((0 <= det3 d b c / det3 a b c /\ 0 <= det3 a d c / det3 a b c /\ 0 <= det3 a b d / det3 a b c) /\ (det3 d b c = 0 \/ det3 a d c = 0 \/ det3 a b d = 0))).
  { intros ((Q1 & Q2 & Q3) & Q). destruct (combo_rim tris p d q _ _ _ A Hq Q1 Q2 Q3 K) as (Y1 & Y2 & Y3).
    destruct Q as [Q|[Q|Q]]; rewrite Q in *; unfold Rdiv in *; lra. }
  assert (SG : forall x y, small (fun e => 0 < x -> 0 < x + e * y) /\ small (fun e => x < 0 -> x + e * y < 0)).
  { intros x y. split.
    - destruct (Rlt_dec 0 x) as [P|P]; [apply small_pos with (y := y) in P; revert P; apply small_impl; auto|]. apply small_true. intros e H. contradiction.
    - destruct (Rlt_dec x 0) as [P|P]; [apply small_neg with (y := y) in P; revert P; apply small_impl; auto|]. apply small_true. intros e H. contradiction. }
  destruct (SG (det3 d b c) (det3 w b c)) as [A1 B1]. destruct (SG (det3 a d c) (det3 a w c)) as [A2 B2]. destruct (SG (det3 a b d) (det3 a b w)) as [A3 B3].
  assert (ALL := small_and _ _ (small_and _ _ A1 B1) (small_and _ _ (small_and _ _ A2 B2) (small_and _ _ A3 B3))). revert ALL. apply small_impl.
  intros e ((H1 & H2) & (H3 & H4) & H5 & H6). destruct (det_moved a b c d w e) as (E1 & E2 & E3). rewrite E1, E2, E3.
  assert (PD : forall x, 0 < det3 a b c -> (0 <= x / det3 a b c <-> 0 <= x)).
  { intros x P. split; intros H; [replace x with (x / det3 a b c * det3 a b c) by (field; lra); apply Rmult_le_pos; lra|apply Rmult_le_pos; [lra|]; left; apply Rinv_0_lt_compat, P]. }
  assert (ND : forall x, det3 a b c < 0 -> (0 <= x / det3 a b c <-> x <= 0)).
  { intros x P. assert (F : x / det3 a b c = (- x) * / (- det3 a b c)) by (field; lra). rewrite F. assert (I2 : 0 < / (- det3 a b c)) by (apply Rinv_0_lt_compat; lra).
    split; intros H; [assert (0 <= - x); [|lra]; apply (Rmult_le_reg_r (/ - det3 a b c)); [exact I2|lra]|apply Rmult_le_pos; lra]. }
  clearbody a b c. clear A1 B1 A2 B2 A3 B3 SG A E1 E2 E3.
  destruct (Rlt_dec 0 (det3 a b c)) as [P|P].
  - rewrite !(PD _ P) in NZ. clear PD ND K. revert NZ H1 H2 H3 H4 H5 H6 P. generalize (det3 a b c), (det3 d b c), (det3 a d c), (det3 a b d), (e * det3 w b c), (e * det3 a w c), (e * det3 a b w). clear. intros D x y z x' y' z' NZ H1 H2 H3 H4 H5 H6 P.
    unfold sig4. repeat (destruct (Rlt_dec _ _); try reflexivity); exfalso; lra.
  - assert (N : det3 a b c < 0) by lra. rewrite !(ND _ N) in NZ. clear PD ND K P. revert NZ H1 H2 H3 H4 H5 H6 N. generalize (det3 a b c), (det3 d b c), (det3 a d c), (det3 a b d), (e * det3 w b c), (e * det3 a w c), (e * det3 a b w). clear. intros D x y z x' y' z' NZ H1 H2 H3 H4 H5 H6 P.
    unfold sig4. repeat (destruct (Rlt_dec _ _); try reflexivity); exfalso; lra.
Qed.
