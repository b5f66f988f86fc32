(** Tetrahedra with three edges along the axes: what they surround. Used by the examples. *)
From Coq Require Import Reals List Arith Bool ZArith Permutation Lia Lra Psatz.
From Verif Require Import Geo MappingModel TrimmedQuadModel MeshModel MeshGeoModel MeshBoxProofs GeoQueryModel SatMain GeoQueryProofs RayProofs CastProofs GeoQueryProps ParitySpec ParityGeo ParityDir ParityMain ParityPath ParityProps FloodGeoSpec FloodSight.
Import ListNotations.
Local Open Scope R_scope.

(** The corner o and the points at the distance s from it along the axes; with [w] the triangles face inwards. *)
Definition tetra (o : pt) (s : R) (w : bool) : list (tri pt) :=
  let a := Pt (px o + s) (py o) (pz o) in let b := Pt (px o) (py o + s) (pz o) in let c := Pt (px o) (py o) (pz o + s) in
  if w then [Tri a c b; Tri o c a; Tri o a b; Tri o b c] else [Tri a b c; Tri o b a; Tri o a c; Tri o c b].
Lemma tetra_closed o s w : closed (tetra o s w).
Proof. destruct w; apply four_closed. Qed.
Definition inner (o : pt) (s : R) (p : pt) : Prop := 0 < px p - px o /\ 0 < py p - py o /\ 0 < pz p - pz o /\ 0 < s - (px p - px o) - (py p - py o) - (pz p - pz o).
Definition outer (o : pt) (s : R) (p : pt) : Prop := px p - px o < 0 \/ py p - py o < 0 \/ pz p - pz o < 0 \/ s - (px p - px o) - (py p - py o) - (pz p - pz o) < 0.

Ltac faces H := unfold tetra in H; cbn [In] in H; repeat destruct H as [<- | H]; try contradiction.
Lemma face_points o s w q p : 0 < s -> In q (tetra o s w) -> in_triangle q p -> ~ inner o s p /\ ~ outer o s p.
Proof.
  intros S I (a & b & c & A & B & C & E & X). assert (Xx := X AX). assert (Xy := X AY). assert (Xz := X AZ). clear X. unfold inner, outer.
  assert (0 <= s * a) by nra. assert (0 <= s * b) by nra. assert (0 <= s * c) by nra. assert (F : c = 1 - a - b) by lra. subst c.
  destruct w; faces I; cbn [at_ P1 P2 P3 px py pz] in *; split; intros H'; lra.
Qed.
Lemma on_face o s w p : 0 < s -> ~ inner o s p -> ~ outer o s p -> exists q, In q (tetra o s w) /\ in_triangle q p.
Proof.
  intros S I O. unfold inner, outer in *. set (x := px p - px o) in *. set (y := py p - py o) in *. set (z := pz p - pz o) in *.
  assert (Hx : 0 <= x) by lra. assert (Hy : 0 <= y) by lra. assert (Hz : 0 <= z) by lra. assert (Hs : 0 <= s - x - y - z) by lra.
  assert (D : x = 0 \/ y = 0 \/ z = 0 \/ s - x - y - z = 0) by lra. clear I O.
  assert (Q : forall r, 0 <= r -> 0 <= r / s) by (intros r R; apply Rmult_le_pos; [exact R|left; apply Rinv_0_lt_compat, S]).
  assert (Ss : (s - x - y - z) / s + x / s + y / s + z / s = 1) by (field; lra). assert (Zs : forall r, r = 0 -> r / s = 0) by (intros r ->; unfold Rdiv; ring).
  assert (Qx := Q x Hx). assert (Qy := Q y Hy). assert (Qz := Q z Hz). assert (Qs := Q _ Hs).
  assert (Fx : px p = px o + s * (x / s)) by (unfold x; field; lra). assert (Fy : py p = py o + s * (y / s)) by (unfold y; field; lra). assert (Fz : pz p = pz o + s * (z / s)) by (unfold z; field; lra).
  set (a := x / s) in *. set (b := y / s) in *. set (c := z / s) in *. set (e := (s - x - y - z) / s) in *.
  assert (D' : a = 0 \/ b = 0 \/ c = 0 \/ e = 0) by (destruct D as [D|[D|[D|D]]]; apply Zs in D; auto). clearbody a b c e x y z. clear D Zs Q Hx Hy Hz Hs.
  assert (G : forall k q k1 k2 k3, nth_error (tetra o s w) k = Some q -> 0 <= k1 -> 0 <= k2 -> 0 <= k3 -> k1 + k2 + k3 = 1 ->
    (px p = k1 * px (P1 q) + k2 * px (P2 q) + k3 * px (P3 q) /\ py p = k1 * py (P1 q) + k2 * py (P2 q) + k3 * py (P3 q) /\ pz p = k1 * pz (P1 q) + k2 * pz (P2 q) + k3 * pz (P3 q)) -> exists q, In q (tetra o s w) /\ in_triangle q p).
  { intros k q k1 k2 k3 I K1 K2 K3 K (E1 & E2 & E3). exists q. split; [exact (nth_error_In _ _ I)|]. exists k1, k2, k3. repeat (split; [assumption|]). intros []; assumption. }
  assert (Ee : e = 1 - a - b - c) by lra.
  destruct w; destruct D' as [D|[D|[D|D]]];
    [apply (G 3%nat _ e b c eq_refl) | apply (G 1%nat _ e c a eq_refl) | apply (G 2%nat _ e a b eq_refl) | apply (G 0%nat _ a c b eq_refl)
    |apply (G 3%nat _ e c b eq_refl) | apply (G 2%nat _ e a c eq_refl) | apply (G 1%nat _ e b a eq_refl) | apply (G 0%nat _ a b c eq_refl)];
    try lra; cbn [P1 P2 P3 px py pz]; rewrite Fx, Fy, Fz;
    first [ subst e a; repeat split; ring | subst e b; repeat split; ring | subst e c; repeat split; ring | assert (a = 1 - b - c) as -> by lra; repeat split; ring ].
Qed.
Lemma inner_off o s w p : 0 < s -> inner o s p -> off_surface (tetra o s w) p.
Proof. intros S I q J K. destruct (face_points o s w q p S J K) as [N _]. exact (N I). Qed.
Lemma outer_off o s w p : 0 < s -> outer o s p -> off_surface (tetra o s w) p.
Proof. intros S I q J K. destruct (face_points o s w q p S J K) as [_ N]. exact (N I). Qed.

Lemma inner_surrounded o s w p : 0 < s -> inner o s p -> surrounded (tetra o s w) p.
Proof.
  intros S (X & Y & Z & D). exists (Pt (-1) 0 0).
  assert (Hit : forall q t u v, In q (tetra o s w) -> 0 <= t -> 0 <= u -> 0 <= v -> u + v <= 1 -> walk p (Pt (-1) 0 0) t = plane_point q u v -> nth_error (tetra o s w) 3 = Some q /\ 0 < u /\ 0 < v /\ u + v < 1).
  { intros q t u v I T U V UV E. apply pt_inv in E as (E1 & E2 & E3). assert (0 <= s * u) by nra. assert (0 <= s * v) by nra. assert (s * u + s * v <= s) by nra.
    destruct w; faces I; unfold walk, plane_point, vadd, vscale, vsub in *; cbn [P1 P2 P3 px py pz] in *; try (exfalso; lra).
    - split; [reflexivity|]. split; [|split].
      + destruct (Req_dec u 0) as [->|]; lra.
      + destruct (Req_dec v 0) as [->|]; lra.
      + destruct (Req_dec (u + v) 1) as [K|]; [|lra]. assert (u = 1 - v) as -> by lra. lra.
    - split; [reflexivity|]. split; [|split].
      + destruct (Req_dec u 0) as [->|]; lra.
      + destruct (Req_dec v 0) as [->|]; lra.
      + destruct (Req_dec (u + v) 1) as [K|]; [|lra]. assert (u = 1 - v) as -> by lra. lra. }
  split; [split|].
  - intros E. injection E. lra.
  - intros q t u v I T (U & V & UV & R) E. destruct (Hit q t u v I T U V UV E) as (_ & H1 & H2 & H3). lra.
  - exists [3%nat]. split; [repeat constructor; cbn; tauto|]. split; [|reflexivity]. intros i. split.
    + intros [<-|[]]. set (y := py p - py o) in *. set (z := pz p - pz o) in *. assert (Q : forall r, 0 < r -> 0 < r / s) by (intros r R; apply Rmult_lt_0_compat; [exact R|apply Rinv_0_lt_compat, S]).
      assert (Qy := Q y Y). assert (Qz := Q z Z). assert (Qs : y / s + z / s < 1). { replace 1 with (s / s) by (field; lra). replace (y / s + z / s) with ((y + z) / s) by (field; lra). apply Rmult_lt_compat_r; [apply Rinv_0_lt_compat, S|lra]. }
      destruct w.
      * eexists. split; [reflexivity|]. exists (px p - px o), (y / s), (z / s). repeat (split; [lra|]). apply pt_ext; unfold walk, plane_point, vadd, vscale, vsub; cbn [P1 P2 P3 px py pz]; unfold y, z; field; lra.
      * eexists. split; [reflexivity|]. exists (px p - px o), (z / s), (y / s). repeat (split; [lra|]). apply pt_ext; unfold walk, plane_point, vadd, vscale, vsub; cbn [P1 P2 P3 px py pz]; unfold y, z; field; lra.
    + intros (q & Nq & t & u & v & T & U & V & UV & E). destruct (Hit q t u v (nth_error_In _ _ Nq) ltac:(lra) ltac:(lra) ltac:(lra) ltac:(lra) E) as [N3 _].
      left. apply (f_equal (@Some (tri pt))) in Nq || idtac.
      destruct i as [|[|[|[|i]]]]; [..|reflexivity|destruct w, i; discriminate Nq]; exfalso;
        (destruct w; cbn in Nq, N3; injection Nq as <-; injection N3; intros; subst; lra).
Qed.
Lemma outer_not o s w p : 0 < s -> outer o s p -> ~ surrounded (tetra o s w) p.
Proof.
  intros S [X|[Y|[Z|D]]].
  - apply (outside_range _ p AX); [left|apply tetra_closed]. intros q v I J. unfold tri_corners in J. destruct w; faces I; cbn [In P1 P2 P3] in J; repeat destruct J as [<-|J]; try contradiction; cbn [at_ px py pz]; lra.
  - apply (outside_range _ p AY); [left|apply tetra_closed]. intros q v I J. unfold tri_corners in J. destruct w; faces I; cbn [In P1 P2 P3] in J; repeat destruct J as [<-|J]; try contradiction; cbn [at_ px py pz]; lra.
  - apply (outside_range _ p AZ); [left|apply tetra_closed]. intros q v I J. unfold tri_corners in J. destruct w; faces I; cbn [In P1 P2 P3] in J; repeat destruct J as [<-|J]; try contradiction; cbn [at_ px py pz]; lra.
  - set (K := s + Rabs (px p - px o) + 1). set (p' := Pt (px p + K) (py p + K) (pz p + K)). assert (Kp : 0 < K) by (unfold K; assert (H := Rabs_pos (px p - px o)); lra).
    rewrite (same_side (tetra o s w) p p' (tetra_closed o s w)).
    + apply (outside_range _ p' AX); [right|apply tetra_closed]. assert (K' : px o + s < px p + K) by (unfold K; assert (H := Rle_abs (- (px p - px o))); rewrite Rabs_Ropp in H; lra).
      intros q v I J. unfold tri_corners in J. destruct w; faces I; cbn [In P1 P2 P3] in J; repeat destruct J as [<-|J]; try contradiction; unfold p'; cbn [at_ px py pz]; lra.
    + intros t T. apply outer_off; [exact S|]. right; right; right. unfold between, p', vadd, vscale, vsub; cbn [px py pz]. nra.
Qed.

Lemma zsum_split p d A B : signed_count (A ++ B) p d = (signed_count A p d + signed_count B p d)%Z.
Proof. apply zsum_app. Qed.
Lemma closed_app (A B : list (tri pt)) : closed A -> closed B -> closed (A ++ B).
Proof. unfold closed. intros HA HB. rewrite flat_map_app, map_app. apply Permutation_app; assumption. Qed.
Lemma off_app A B p : off_surface (A ++ B) p <-> off_surface A p /\ off_surface B p.
Proof. unfold off_surface. split; [intros H; split; intros q I; apply H, in_or_app; auto|]. intros [HA HB] q I. apply in_app_or in I as [I|I]; auto. Qed.
(** Two closed surfaces surround what one of them surrounds and the other does not. *)
Lemma surrounded_app A B p : closed A -> closed B -> off_surface A p -> off_surface B p ->
  (surrounded (A ++ B) p <-> (surrounded A p /\ ~ surrounded B p) \/ (~ surrounded A p /\ surrounded B p)).
Proof.
  intros CA CB OA OB. assert (O : off_surface (A ++ B) p) by (apply off_app; auto). destruct (some_direction (A ++ B) p O) as (d & Av).
  assert (AvA : avoids A p d) by (split; [apply Av|]; intros q t u v I; apply (proj2 Av); apply in_or_app; auto). assert (AvB : avoids B p d) by (split; [apply Av|]; intros q t u v I; apply (proj2 Av); apply in_or_app; auto).
  rewrite (surrounded_iff _ p d (closed_app A B CA CB) O Av), (surrounded_iff A p d CA OA AvA), (surrounded_iff B p d CB OB AvB), !odd_crossings_count by assumption.
  rewrite zsum_split, Z.odd_add. destruct (Z.odd (signed_count A p d)), (Z.odd (signed_count B p d)); cbn; intuition discriminate.
Qed.

(** *** Just in front of and behind a face *)
Lemma walk_at p d t : px (walk p d t) = px p + t * px d /\ py (walk p d t) = py p + t * py d /\ pz (walk p d t) = pz p + t * pz d.
Proof. repeat split. Qed.
Lemma inner_stays o s p d : inner o s p -> small (fun e => inner o s (walk p d e)).
Proof.
  intros (X & Y & Z & D).
  assert (H := small_and _ _ (small_and _ _ (small_pos _ (px d) X) (small_pos _ (py d) Y)) (small_and _ _ (small_pos _ (pz d) Z) (small_pos _ (- px d - py d - pz d) D))).
  revert H. apply small_impl. intros e ((H1 & H2) & H3 & H4). unfold inner. cbn [walk vadd vscale px py pz]. lra.
Qed.
Lemma outer_stays o s p d : outer o s p -> small (fun e => outer o s (walk p d e)).
Proof.
  unfold outer. cbn [walk vadd vscale px py pz].
  intros [X|[Y|[Z|D]]]; [assert (H := small_neg _ (px d) X)|assert (H := small_neg _ (py d) Y)|assert (H := small_neg _ (pz d) Z)|assert (H := small_neg _ (- px d - py d - pz d) D)];
    revert H; apply small_impl; intros e H; [left|right; left|right; right; left|right; right; right]; lra.
Qed.
Lemma walk_back p d e : walk p (vscale (-1) d) e = walk p d (- e).
Proof. apply pt_ext; cbn [walk vadd vscale px py pz]; ring. Qed.
Lemma behind o s w q u v d : 0 < s -> In q (tetra o s w) -> 0 < u -> 0 < v -> u + v < 1 -> 0 < dot (normal_dir q) d ->
  small (fun e => (if w then outer o s else inner o s) (walk (plane_point q u v) d (- e)) /\ (if w then inner o s else outer o s) (walk (plane_point q u v) d e)).
Proof.
  intros S I U V UV N. assert (SU : 0 < s * u) by nra. assert (SV : 0 < s * v) by nra. assert (SUV : 0 < s - s * u - s * v) by nra.
  assert (Pos : forall x, 0 < s * s * x -> 0 < x) by (intros x H; nra).
  (* the three functionals that are positive on the face stay positive *)
  destruct w; faces I; unfold normal_dir, dot, cross, vsub in N; cbn [P1 P2 P3 px py pz] in N.
  all: match type of N with 0 < ?x =>
      first [ assert (Dd : 0 < px d + py d + pz d) by (apply Pos; lra) | assert (Dd : 0 < - (px d + py d + pz d)) by (apply Pos; lra)
            | assert (Dd : 0 < px d) by (apply Pos; lra) | assert (Dd : 0 < - px d) by (apply Pos; lra)
            | assert (Dd : 0 < py d) by (apply Pos; lra) | assert (Dd : 0 < - py d) by (apply Pos; lra)
            | assert (Dd : 0 < pz d) by (apply Pos; lra) | assert (Dd : 0 < - pz d) by (apply Pos; lra) ] end.
  all: assert (G : forall a b, 0 < a -> small (fun e => 0 < a + e * b /\ 0 < a - e * b))
    by (intros a b Ha; assert (H := small_and _ _ (small_pos a b Ha) (small_pos a (- b) Ha)); revert H; apply small_impl; intros e [H1 H2]; split; lra).
  all: assert (Ep : small (fun e => 0 < e)) by (exists 1; split; [lra|]; intros e He; lra).
  all: assert (H := small_and _ _ Ep (small_and _ _ (small_and _ _ (G _ (px d) SU) (G _ (px d) SV)) (G _ (px d) SUV))); clear H.
  all: assert (H := small_and _ _ Ep (small_and _ _ (small_and _ _ (small_and _ _ (G _ (px d) SU) (G _ (px d) SV)) (G _ (px d) SUV)) (small_and _ _ (small_and _ _ (small_and _ _ (G _ (py d) SU) (G _ (py d) SV)) (G _ (py d) SUV))
    (small_and _ _ (small_and _ _ (small_and _ _ (G _ (pz d) SU) (G _ (pz d) SV)) (G _ (pz d) SUV)) (small_and _ _ (small_and _ _ (G _ (px d + py d + pz d) SU) (G _ (px d + py d + pz d) SV)) (G _ (px d + py d + pz d) SUV)))))).
  all: revert H; apply small_impl; intros e (E0 & (((X1 & X1') & (X2 & X2')) & (X3 & X3')) & (((Y1 & Y1') & (Y2 & Y2')) & (Y3 & Y3')) & (((Z1 & Z1') & (Z2 & Z2')) & (Z3 & Z3')) & ((D1 & D1') & (D2 & D2')) & (D3 & D3')).
  all: assert (ED := Rmult_lt_0_compat _ _ E0 Dd); clear N Pos Dd G Ep; unfold inner, outer, plane_point; cbn [walk vadd vscale vsub P1 P2 P3 px py pz]; split; lra.
Qed.
Lemma outer_dec o s p : outer o s p \/ ~ outer o s p.
Proof. unfold outer. destruct (Rlt_dec (px p - px o) 0), (Rlt_dec (py p - py o) 0), (Rlt_dec (pz p - pz o) 0), (Rlt_dec (s - (px p - px o) - (py p - py o) - (pz p - pz o)) 0); tauto. Qed.
Lemma small_back (P : pt -> Prop) x d : (forall d, small (fun e => P (walk x d e))) -> small (fun e => P (walk x d e) /\ P (walk x d (- e))).
Proof. intros H. assert (K := small_and _ _ (H d) (H (vscale (-1) d))). revert K. apply small_impl. intros e [K1 K2]. rewrite walk_back in K2. auto. Qed.
Lemma tetra_outward o s : 0 < s -> outward (tetra o s false).
Proof.
  intros S q u v d I U V UV N. destruct (behind o s false q u v d S I U V UV N) as (e0 & E0 & H). exists e0. split; [exact E0|]. intros e He. destruct (H e He) as [H1 H2].
  split; [apply inner_surrounded; assumption | apply outer_not; assumption].
Qed.
(** A tetrahedron with a cavity. *)
Definition hollow (o : pt) (s : R) (o' : pt) (s' : R) : list (tri pt) := tetra o s false ++ tetra o' s' true.
Definition nested (o : pt) (s : R) (o' : pt) (s' : R) : Prop := forall p, ~ outer o' s' p -> inner o s p.
Lemma hollow_closed o s o' s' : closed (hollow o s o' s').
Proof. apply closed_app; apply tetra_closed. Qed.
Lemma hollow_in o s o' s' p : 0 < s -> 0 < s' -> inner o s p -> outer o' s' p -> off_surface (hollow o s o' s') p /\ surrounded (hollow o s o' s') p.
Proof.
  intros S S' I O. split; [apply off_app; split; [apply inner_off|apply outer_off]; assumption|].
  apply surrounded_app; [apply tetra_closed|apply tetra_closed|apply inner_off; assumption|apply outer_off; assumption|]. left. split; [apply inner_surrounded; assumption | apply outer_not; assumption].
Qed.
Lemma hollow_out o s o' s' p : 0 < s -> 0 < s' -> outer o s p -> outer o' s' p -> ~ surrounded (hollow o s o' s') p.
Proof.
  intros S S' I O K. apply surrounded_app in K; [|apply tetra_closed|apply tetra_closed|apply outer_off; assumption|apply outer_off; assumption].
  destruct K as [[K _]|[_ K]]; revert K; apply outer_not; assumption.
Qed.
Lemma hollow_cavity o s o' s' p : 0 < s -> 0 < s' -> inner o s p -> inner o' s' p -> ~ surrounded (hollow o s o' s') p.
Proof.
  intros S S' I O K. apply surrounded_app in K; [|apply tetra_closed|apply tetra_closed|apply inner_off; assumption|apply inner_off; assumption].
  assert (H1 := inner_surrounded o s false p S I). assert (H2 := inner_surrounded o' s' true p S' O). tauto.
Qed.
Lemma hollow_outward o s o' s' : 0 < s -> 0 < s' -> nested o s o' s' -> outward (hollow o s o' s').
Proof.
  intros S S' Ns q u v d I U V UV N. apply in_app_or in I as [I|I].
  - assert (O : outer o' s' (plane_point q u v)).
    { destruct (outer_dec o' s' (plane_point q u v)) as [O|O]; [exact O|]. destruct (face_points o s false q (plane_point q u v) S I (plane_in q u v ltac:(lra) ltac:(lra) ltac:(lra))) as [K _]. destruct (K (Ns _ O)). }
    assert (H := small_and _ _ (behind o s false q u v d S I U V UV N) (small_back (outer o' s') (plane_point q u v) d (fun d => outer_stays o' s' _ d O))). destruct H as (e0 & E0 & H).
    exists e0. split; [exact E0|]. intros e He. destruct (H e He) as ((H1 & H2) & H3 & H4). split; [apply hollow_in; assumption | apply hollow_out; assumption].
  - assert (O : inner o s (plane_point q u v)).
    { apply Ns. apply (face_points o' s' true q (plane_point q u v) S' I (plane_in q u v ltac:(lra) ltac:(lra) ltac:(lra))). }
    assert (H := small_and _ _ (behind o' s' true q u v d S' I U V UV N) (small_back (inner o s) (plane_point q u v) d (fun d => inner_stays o s _ d O))). destruct H as (e0 & E0 & H).
    exists e0. split; [exact E0|]. intros e He. destruct (H e He) as ((H1 & H2) & H3 & H4). split; [apply hollow_in; assumption | apply hollow_cavity; assumption].
Qed.
