(** Signed cones: the count of the triangles of a closed surface that are seen in a direction, with their orientation, does
    not depend on the direction. *)
From Coq Require Import Reals List Arith Bool ZArith Permutation Lia Lra Psatz.
From Verif Require Import Geo MappingModel TrimmedQuadModel MeshModel MeshGeoModel MeshBoxProofs.
Import ListNotations.
Local Open Scope R_scope.

(** 1 if all four are positive, -1 if all are negative. *)
Definition sig4 (w x y z : R) : Z :=
  if Rlt_dec 0 w then (if Rlt_dec 0 x then if Rlt_dec 0 y then if Rlt_dec 0 z then 1 else 0 else 0 else 0)%Z
  else if Rlt_dec w 0 then (if Rlt_dec x 0 then if Rlt_dec y 0 then if Rlt_dec z 0 then -1 else 0 else 0 else 0)%Z
  else 0%Z.
Lemma sig4_neg w x y z : sig4 (- w) (- x) (- y) (- z) = (- sig4 w x y z)%Z.
Proof. unfold sig4. repeat destruct (Rlt_dec _ _); try reflexivity; exfalso; lra. Qed.
Lemma sig4_swap w x y z : sig4 w x y z = sig4 w x z y.
Proof. unfold sig4. repeat destruct (Rlt_dec _ _); try reflexivity; exfalso; lra. Qed.
Lemma sig4_0 x y z : sig4 0 x y z = 0%Z.
Proof. unfold sig4. repeat destruct (Rlt_dec _ _); try reflexivity; exfalso; lra. Qed.
Lemma sig4_nonzero w x y z : sig4 w x y z <> 0%Z <-> (0 < w /\ 0 < x /\ 0 < y /\ 0 < z) \/ (w < 0 /\ x < 0 /\ y < 0 /\ z < 0).
Proof. unfold sig4. repeat destruct (Rlt_dec _ _); split; intros H; try lra; try congruence; try discriminate; exfalso; try lra; apply H; reflexivity. Qed.

(** Signs as booleans. *)
Definition bs (x : R) : bool := if Rlt_dec 0 x then true else false.
Lemma bs_mult a b : a <> 0 -> b <> 0 -> bs (a * b) = Bool.eqb (bs a) (bs b).
Proof.
  intros Ha Hb. unfold bs. destruct (Rlt_dec 0 a), (Rlt_dec 0 b), (Rlt_dec 0 (a * b)); try reflexivity; exfalso; nra.
Qed.
Lemma bs_opp a : a <> 0 -> bs (- a) = negb (bs a).
Proof. intros Ha. unfold bs. destruct (Rlt_dec 0 a), (Rlt_dec 0 (- a)); try reflexivity; exfalso; lra. Qed.
Definition mixed (a b c : bool) : bool := negb (a && b && c) && (a || b || c).
Lemma bs_mixed a b c : a <> 0 -> b <> 0 -> c <> 0 -> a + b + c = 0 -> mixed (bs a) (bs b) (bs c) = true.
Proof. intros Ha Hb Hc E. unfold bs. destruct (Rlt_dec 0 a), (Rlt_dec 0 b), (Rlt_dec 0 c); try reflexivity; exfalso; lra. Qed.
Definition bsig (w x y z : bool) : Z := (if w then (if x && y && z then 1 else 0) else (if x || y || z then 0 else -1))%Z.
Lemma sig4_bs w x y z : w <> 0 -> x <> 0 -> y <> 0 -> z <> 0 -> sig4 w x y z = bsig (bs w) (bs x) (bs y) (bs z).
Proof.
  intros. unfold sig4, bs. destruct (Rlt_dec 0 w), (Rlt_dec 0 x), (Rlt_dec 0 y), (Rlt_dec 0 z); cbn;
    repeat destruct (Rlt_dec _ 0); try reflexivity; exfalso; lra.
Qed.
Lemma bool_cone d1 d2 d3 r1 r2 r3 ma mb mc :
  mixed mc (negb (Bool.eqb d1 r2)) (Bool.eqb d2 r1) = true -> mixed ma (negb (Bool.eqb d2 r3)) (Bool.eqb d3 r2) = true ->
  mixed mb (negb (Bool.eqb d3 r1)) (Bool.eqb d1 r3) = true ->
  mixed (Bool.eqb d1 ma) (Bool.eqb d2 mb) (Bool.eqb d3 mc) = true -> mixed (Bool.eqb r1 ma) (Bool.eqb r2 mb) (Bool.eqb r3 mc) = true ->
  (bsig true d1 d2 d3 - bsig r1 d1 (negb mc) mb - bsig r2 d2 (negb ma) mc - bsig r3 d3 (negb mb) ma = bsig true (negb r1) (negb r2) (negb r3))%Z.
Proof. destruct d1, d2, d3, r1, r2, r3, ma, mb, mc; cbn; intros; try reflexivity; discriminate. Qed.

Lemma prod_nonzero a b : a <> 0 -> b <> 0 -> a * b <> 0.
Proof. intros H K E. apply Rmult_integral in E. tauto. Qed.
Lemma opp_nonzero a : a <> 0 -> - a <> 0.
Proof. lra. Qed.
Local Hint Resolve prod_nonzero opp_nonzero : sgn.

Lemma cone_pos D D1 D2 D3 R1 R2 R3 Ma Mb Mc : 0 < D -> D * Mc = D1 * R2 - D2 * R1 -> D * Ma = D2 * R3 - D3 * R2 -> D * Mb = D3 * R1 - D1 * R3 ->
  D1 * Ma + D2 * Mb + D3 * Mc = 0 -> R1 * Ma + R2 * Mb + R3 * Mc = 0 ->
  D1 <> 0 -> D2 <> 0 -> D3 <> 0 -> R1 <> 0 -> R2 <> 0 -> R3 <> 0 -> Ma <> 0 -> Mb <> 0 -> Mc <> 0 ->
  (sig4 D D1 D2 D3 - sig4 R1 D1 (- Mc) Mb - sig4 R2 D2 (- Ma) Mc - sig4 R3 D3 (- Mb) Ma = sig4 D (- R1) (- R2) (- R3))%Z.
Proof.
  intros HD E1 E2 E3 E4 E5 N1 N2 N3 N4 N5 N6 N7 N8 N9. assert (N0 : D <> 0) by lra. assert (BD : bs D = true) by (unfold bs; destruct (Rlt_dec 0 D); [reflexivity|lra]).
  rewrite !sig4_bs, !bs_opp, BD by auto with sgn.
  assert (T : forall m x y a b, m <> 0 -> x <> 0 -> y <> 0 -> a <> 0 -> b <> 0 -> D * m = x * y - a * b -> mixed (bs m) (negb (Bool.eqb (bs x) (bs y))) (Bool.eqb (bs a) (bs b)) = true).
  { intros m x y a b Hm Hx Hy Ha Hb E. pose proof (bs_mixed (D * m) (- (x * y)) (a * b)) as M. rewrite bs_opp, !bs_mult, BD in M by auto with sgn.
    replace (Bool.eqb true (bs m)) with (bs m) in M by (destruct (bs m); reflexivity). apply M; auto with sgn. clear - E. lra. }
  apply bool_cone; try (apply T; assumption).
  - rewrite <- !bs_mult by assumption. apply bs_mixed; auto with sgn.
  - rewrite <- !bs_mult by assumption. apply bs_mixed; auto with sgn.
Qed.
Lemma cone_nonzero D D1 D2 D3 R1 R2 R3 Ma Mb Mc : D <> 0 -> D * Mc = D1 * R2 - D2 * R1 -> D * Ma = D2 * R3 - D3 * R2 -> D * Mb = D3 * R1 - D1 * R3 ->
  D1 * Ma + D2 * Mb + D3 * Mc = 0 -> R1 * Ma + R2 * Mb + R3 * Mc = 0 ->
  D1 <> 0 -> D2 <> 0 -> D3 <> 0 -> R1 <> 0 -> R2 <> 0 -> R3 <> 0 -> Ma <> 0 -> Mb <> 0 -> Mc <> 0 ->
  (sig4 D D1 D2 D3 - sig4 R1 D1 (- Mc) Mb - sig4 R2 D2 (- Ma) Mc - sig4 R3 D3 (- Mb) Ma = sig4 D (- R1) (- R2) (- R3))%Z.
Proof.
  intros HD E1 E2 E3 E4 E5 N1 N2 N3 N4 N5 N6 N7 N8 N9. destruct (Rlt_dec 0 D) as [P|P]; [apply cone_pos; assumption|].
  assert (C := cone_pos (- D) (- D1) (- D2) (- D3) (- R1) (- R2) (- R3) (- Ma) (- Mb) (- Mc)). rewrite !sig4_neg in C.
  assert (- D * - Mc = - D1 * - R2 - - D2 * - R1) by lra. assert (- D * - Ma = - D2 * - R3 - - D3 * - R2) by lra. assert (- D * - Mb = - D3 * - R1 - - D1 * - R3) by lra.
  assert (- D1 * - Ma + - D2 * - Mb + - D3 * - Mc = 0) by lra. assert (- R1 * - Ma + - R2 * - Mb + - R3 * - Mc = 0) by lra.
  assert (0 < - D) by lra. specialize (C ltac:(assumption) ltac:(assumption) ltac:(assumption) ltac:(assumption) ltac:(assumption) ltac:(assumption)
    (opp_nonzero _ N1) (opp_nonzero _ N2) (opp_nonzero _ N3) (opp_nonzero _ N4) (opp_nonzero _ N5) (opp_nonzero _ N6) (opp_nonzero _ N7) (opp_nonzero _ N8) (opp_nonzero _ N9)). lia.
Qed.
(** The three vectors are in a plane with the origin, which is not in the triangle. *)
Lemma bool_flat d1 d2 d3 r1 r2 r3 ma mb mc : Bool.eqb d1 r2 = Bool.eqb d2 r1 -> Bool.eqb d2 r3 = Bool.eqb d3 r2 -> Bool.eqb d3 r1 = Bool.eqb d1 r3 ->
  mixed d1 d2 d3 = true -> mixed (Bool.eqb d1 ma) (Bool.eqb d2 mb) (Bool.eqb d3 mc) = true ->
  (bsig r1 d1 (negb mc) mb + bsig r2 d2 (negb ma) mc + bsig r3 d3 (negb mb) ma = 0)%Z.
Proof. destruct d1, d2, d3, r1, r2, r3, ma, mb, mc; cbn; intros; try reflexivity; discriminate. Qed.
Lemma bool_pair x x' r r' m n n' : Bool.eqb x r' = Bool.eqb x' r -> x = negb x' -> Bool.eqb x n' = negb (Bool.eqb x' n) ->
  (bsig r x (negb m) n + bsig r' x' (negb n') m = 0)%Z.
Proof. destruct x, x', r, r', m, n, n'; cbn; intros; try reflexivity; discriminate. Qed.
Lemma pair_flat x x' r r' m n n' : x * r' = x' * r -> x * n' + x' * n = 0 -> (x = 0 <-> r = 0) -> (x' = 0 <-> r' = 0) -> m <> 0 -> n <> 0 -> n' <> 0 ->
  (0 <= x -> 0 <= x' -> x + x' = 0) -> (x <= 0 -> x' <= 0 -> x + x' = 0) -> (sig4 r x (- m) n + sig4 r' x' (- n') m = 0)%Z.
Proof.
  intros E1 E2 Z1 Z2 N1 N2 N3 P1 P2. destruct (Req_dec x 0) as [X|X].
  - assert (x' = 0) by (destruct (Rle_dec 0 x'); lra). rewrite (proj1 Z1 X), (proj1 Z2 H), !sig4_0. reflexivity.
  - assert (X' : x' <> 0) by (intros K; destruct (Rle_dec 0 x); lra). assert (r <> 0) by tauto. assert (r' <> 0) by tauto.
    rewrite !sig4_bs, !bs_opp by auto with sgn. apply bool_pair.
    + rewrite <- !bs_mult by assumption. rewrite E1. reflexivity.
    + unfold bs. destruct (Rlt_dec 0 x), (Rlt_dec 0 x'); try reflexivity; exfalso; lra.
    + rewrite <- !bs_mult by assumption. rewrite <- bs_opp by auto with sgn. f_equal. lra.
Qed.
Lemma cone_flat D1 D2 D3 R1 R2 R3 Ma Mb Mc : D1 * R2 = D2 * R1 -> D2 * R3 = D3 * R2 -> D3 * R1 = D1 * R3 ->
  D1 * Ma + D2 * Mb + D3 * Mc = 0 -> (D1 = 0 <-> R1 = 0) -> (D2 = 0 <-> R2 = 0) -> (D3 = 0 <-> R3 = 0) -> Ma <> 0 -> Mb <> 0 -> Mc <> 0 ->
  (0 <= D1 -> 0 <= D2 -> 0 <= D3 -> D1 + D2 + D3 = 0) -> (D1 <= 0 -> D2 <= 0 -> D3 <= 0 -> D1 + D2 + D3 = 0) ->
  (sig4 R1 D1 (- Mc) Mb + sig4 R2 D2 (- Ma) Mc + sig4 R3 D3 (- Mb) Ma = 0)%Z.
Proof.
  intros E1 E2 E3 E4 Z1 Z2 Z3 Na Nb Nc P1 P2.
  destruct (Req_dec D1 0) as [X1|X1].
  { rewrite (proj1 Z1 X1), sig4_0. apply (pair_flat D2 D3 R2 R3 Ma Mc Mb); try assumption; try (clear - P1 P2 X1; intros; lra). clear - E4 X1. rewrite X1 in E4. lra. }
  destruct (Req_dec D2 0) as [X2|X2].
  { rewrite (proj1 Z2 X2), sig4_0. rewrite Z.add_0_r, Z.add_comm. apply (pair_flat D3 D1 R3 R1 Mb Ma Mc); try assumption; try (clear - P1 P2 X2; intros; lra). clear - E4 X2. rewrite X2 in E4. lra. }
  destruct (Req_dec D3 0) as [X3|X3].
  { rewrite (proj1 Z3 X3), sig4_0, Z.add_0_r. apply (pair_flat D1 D2 R1 R2 Mc Mb Ma); try assumption; try (clear - P1 P2 X3; intros; lra). clear - E4 X3. rewrite X3 in E4. lra. }
  assert (R1 <> 0) by tauto. assert (R2 <> 0) by tauto. assert (R3 <> 0) by tauto. rewrite !sig4_bs, !bs_opp by auto with sgn. apply bool_flat; rewrite <- ?bs_mult by assumption.
  - rewrite E1. reflexivity.
  - rewrite E2. reflexivity.
  - rewrite E3. reflexivity.
  - clear - P1 P2 X1 X2 X3. unfold bs. destruct (Rlt_dec 0 D1), (Rlt_dec 0 D2), (Rlt_dec 0 D3); try reflexivity; exfalso; lra.
  - apply bs_mixed; auto with sgn.
Qed.

(** *** Vectors *)
Definition det3 (a b c : pt) : R := dot a (cross b c).
Definition opp (a : pt) : pt := vscale (-1) a.
(** d is in the open cone over the triangle a, b, c: with the orientation of the triangle. *)
Definition cone (a b c d : pt) : Z := sig4 (det3 a b c) (det3 d b c) (det3 a d c) (det3 a b d).
(** In general position with respect to an edge; to an edge and another direction. *)
Definition parts (b c d r : pt) : Prop := det3 d b c = 0 <-> det3 r b c = 0.
Ltac vec := unfold det3, opp, dot, cross, vsub, vadd, vscale in *; cbn [px py pz] in *.

(** The origin is not a convex combination. *)
Definition apart (a b c : pt) : Prop := forall x y z, 0 <= x -> 0 <= y -> 0 <= z -> x + y + z = 1 -> vadd (vscale x a) (vadd (vscale y b) (vscale z c)) <> Pt 0 0 0.
Lemma apart_pos a b c x y z : apart a b c -> 0 <= x -> 0 <= y -> 0 <= z -> vadd (vscale x a) (vadd (vscale y b) (vscale z c)) = Pt 0 0 0 -> x + y + z = 0.
Proof.
  intros A X Y Z E. destruct (Req_dec (x + y + z) 0) as [S|S]; [exact S|]. exfalso. assert (P : 0 < x + y + z) by lra.
  assert (PI : 0 < / (x + y + z)) by (apply Rinv_0_lt_compat, P).
  apply (A (/ (x + y + z) * x) (/ (x + y + z) * y) (/ (x + y + z) * z)).
  - apply Rmult_le_pos; lra.
  - apply Rmult_le_pos; lra.
  - apply Rmult_le_pos; lra.
  - field. lra.
  - vec. injection E as E1 E2 E3. f_equal; rewrite ?(Rmult_assoc (/ (x + y + z))), <- !Rmult_plus_distr_l; rewrite ?E1, ?E2, ?E3; ring.
Qed.
Lemma cramer a b c d : vadd (vscale (det3 d b c) a) (vadd (vscale (det3 a d c) b) (vscale (det3 a b d) c)) = vscale (det3 a b c) d.
Proof. vec. f_equal; ring. Qed.

Lemma cone_identity a b c d r : apart a b c -> (parts b c d r) -> (parts c a d r) -> (parts a b d r) ->
  det3 d r a <> 0 -> det3 d r b <> 0 -> det3 d r c <> 0 ->
  (det3 d b c = 0 -> cross b c = Pt 0 0 0) -> (det3 d c a = 0 -> cross c a = Pt 0 0 0) -> (det3 d a b = 0 -> cross a b = Pt 0 0 0) ->
  cone a b c d = (cone r b c d + cone r c a d + cone r a b d + cone a b c (opp r))%Z.
Proof.
  intros A G1 G2 G3 Na Nb Nc C1 C2 C3.
  assert (T1 : cone r b c d = sig4 (det3 r b c) (det3 d b c) (- det3 d r c) (det3 d r b)) by (unfold cone; f_equal; vec; ring).
  assert (T2 : cone r c a d = sig4 (det3 a r c) (det3 a d c) (- det3 d r a) (det3 d r c)) by (unfold cone; f_equal; vec; ring).
  assert (T3 : cone r a b d = sig4 (det3 a b r) (det3 a b d) (- det3 d r b) (det3 d r a)) by (unfold cone; f_equal; vec; ring).
  assert (T4 : cone a b c (opp r) = sig4 (det3 a b c) (- det3 r b c) (- det3 a r c) (- det3 a b r)) by (unfold cone; f_equal; vec; ring).
  assert (G2' : det3 a d c = 0 <-> det3 a r c = 0) by (unfold parts in G2; replace (det3 a d c) with (det3 d c a) by (vec; ring); replace (det3 a r c) with (det3 r c a) by (vec; ring); exact G2).
  assert (G3' : det3 a b d = 0 <-> det3 a b r = 0) by (unfold parts in G3; replace (det3 a b d) with (det3 d a b) by (vec; ring); replace (det3 a b r) with (det3 r a b) by (vec; ring); exact G3).
  unfold parts in G1. rewrite T1, T2, T3, T4.
  assert (E1 : det3 a b c * det3 d r c = det3 d b c * det3 a r c - det3 a d c * det3 r b c) by (vec; ring).
  assert (E2 : det3 a b c * det3 d r a = det3 a d c * det3 a b r - det3 a b d * det3 a r c) by (vec; ring).
  assert (E3 : det3 a b c * det3 d r b = det3 a b d * det3 r b c - det3 d b c * det3 a b r) by (vec; ring).
  assert (E4 : det3 d b c * det3 d r a + det3 a d c * det3 d r b + det3 a b d * det3 d r c = 0) by (vec; ring).
  assert (E5 : det3 r b c * det3 d r a + det3 a r c * det3 d r b + det3 a b r * det3 d r c = 0) by (vec; ring).
  destruct (Req_dec (det3 a b c) 0) as [Z|Z].
  - unfold cone. rewrite Z, !sig4_0. symmetry. rewrite Z.add_0_r. rewrite Z in E1, E2, E3. pose proof (cramer a b c d) as K. rewrite Z in K.
    assert (K0 : forall x y z, vadd (vscale x a) (vadd (vscale y b) (vscale z c)) = vscale 0 d -> vadd (vscale x a) (vadd (vscale y b) (vscale z c)) = Pt 0 0 0) by (intros x y z ->; vec; f_equal; ring).
    apply K0 in K. apply cone_flat; try assumption; try lra.
    + intros X Y W. apply (apart_pos a b c); assumption.
    + intros X Y W. assert (S : - det3 d b c + - det3 a d c + - det3 a b d = 0); [|lra]. apply (apart_pos a b c); try lra; try assumption.
      clear - K. revert K. generalize (det3 d b c), (det3 a d c), (det3 a b d). intros x y z K. vec. injection K as K1 K2 K3. f_equal; lra.
  - assert (Q : forall u v w, det3 u v w = det3 a b c -> cross v w = Pt 0 0 0 -> False).
    { intros u v w Eq Cr. apply Z. rewrite <- Eq. unfold det3. rewrite Cr. unfold dot. cbn. ring. }
    assert (X1 : det3 d b c <> 0) by (intros X; apply (Q a b c); [reflexivity|apply C1, X]).
    assert (X2 : det3 a d c <> 0) by (intros X; apply (Q b c a); [vec; ring|apply C2; rewrite <- X; vec; ring]).
    assert (X3 : det3 a b d <> 0) by (intros X; apply (Q c a b); [vec; ring|apply C3; rewrite <- X; vec; ring]).
    rewrite <- (cone_nonzero (det3 a b c) (det3 d b c) (det3 a d c) (det3 a b d) (det3 r b c) (det3 a r c) (det3 a b r) (det3 d r a) (det3 d r b) (det3 d r c)); try assumption; try tauto.
    unfold cone. ring.
Qed.
