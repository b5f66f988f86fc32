(** The parity of the number of crossed triangles of a closed surface does not depend on the direction. *)
From Coq Require Import Reals List Arith Bool ZArith Permutation Lia Lra Psatz.
From Verif Require Import Geo MappingModel TrimmedQuadModel MeshModel MeshGeoModel MeshBoxProofs SatProofs GeoQueryProofs RayProofs ParitySign ParitySpec.
Import ListNotations.
Local Open Scope R_scope.

(** *** Small numbers *)
Definition small (P : R -> Prop) : Prop := exists e0, 0 < e0 /\ forall e, 0 < e < e0 -> P e.
Lemma small_and P Q : small P -> small Q -> small (fun e => P e /\ Q e).
Proof.
  intros (a & Ha & P1) (b & Hb & Q1). exists (Rmin a b). split; [apply Rmin_glb_lt; assumption|]. intros e He. pose proof (Rmin_l a b). pose proof (Rmin_r a b).
  split; [apply P1|apply Q1]; lra.
Qed.
Lemma small_impl (P Q : R -> Prop) : (forall e, P e -> Q e) -> small P -> small Q.
Proof. intros H (a & Ha & P1). exists a. split; [exact Ha|]. intros e He. apply H, P1, He. Qed.
Lemma small_all {A} (P : A -> R -> Prop) l : (forall x, In x l -> small (P x)) -> small (fun e => forall x, In x l -> P x e).
Proof.
  induction l as [|a l IH]; intros H.
  - exists 1. split; [lra|]. intros e _ x [].
  - assert (S := small_and _ _ (H a (or_introl eq_refl)) (IH (fun x Hx => H x (or_intror Hx)))). revert S. apply small_impl. intros e [P1 P2] x [<-|Hx]; auto.
Qed.
Lemma small_true (P : R -> Prop) : (forall e, P e) -> small P.
Proof. intros H. exists 1. split; [lra|]. auto. Qed.
Lemma small_point P : small P -> exists e, 0 < e /\ P e.
Proof. intros (a & Ha & H). exists (a / 2). split; [lra|]. apply H. lra. Qed.
Lemma small_pos x y : 0 < x -> small (fun e => 0 < x + e * y).
Proof.
  intros Hx. exists (x / (1 + Rabs y)). pose proof (Rabs_pos y) as A. split; [apply Rdiv_lt_0_compat; lra|]. intros e [E1 E2].
  assert (e * (1 + Rabs y) < x). { apply (Rmult_lt_compat_r (1 + Rabs y)) in E2; [|lra]. replace (x / (1 + Rabs y) * (1 + Rabs y)) with x in E2 by (field; lra). exact E2. }
  pose proof (Rle_abs (- y)) as B. rewrite Rabs_Ropp in B. nra.
Qed.
Lemma small_neg x y : x < 0 -> small (fun e => x + e * y < 0).
Proof. intros H. assert (S := small_pos (- x) (- y) ltac:(lra)). revert S. apply small_impl. intros e. lra. Qed.
Lemma small_nonzero x y : x <> 0 -> small (fun e => x + e * y <> 0).
Proof.
  intros H. destruct (Rlt_dec 0 x) as [P|P].
  - assert (S := small_pos x y P). revert S. apply small_impl. intros e. lra.
  - assert (S := small_neg x y ltac:(lra)). revert S. apply small_impl. intros e. lra.
Qed.

(** *** Directions in general position *)
Definition moved (d w : pt) (e : R) : pt := vadd d (vscale e w).
Lemma dot_moved n d w e : dot n (moved d w e) = dot n d + e * dot n w.
Proof. unfold moved. vec. ring. Qed.
Lemma pt_zero n : px n * px n + py n * py n + pz n * pz n = 0 -> n = Pt 0 0 0.
Proof. destruct n as [x y z]. cbn. intros H. f_equal; nra. Qed.
Lemma dot_self n : n <> Pt 0 0 0 -> 0 < dot n n.
Proof.
  intros H. destruct (Rlt_dec 0 (dot n n)) as [P|P]; [exact P|]. exfalso. apply H. apply pt_zero. unfold dot in P. nra.
Qed.
Definition generic (L : list pt) (d : pt) : Prop := forall n, In n L -> n <> Pt 0 0 0 -> dot n d <> 0.
Lemma pt_dec (a b : pt) : a = b \/ a <> b.
Proof.
  destruct a as [x y z], b as [x' y' z']. destruct (Req_dec x x') as [->|N]; [|right; congruence]. destruct (Req_dec y y') as [->|N]; [|right; congruence].
  destruct (Req_dec z z') as [->|N]; [left; reflexivity|right; congruence].
Qed.
Lemma generic_exists L : exists w, generic L w.
Proof.
  induction L as [|n L (w & Hw)]; [exists (Pt 0 0 0); intros n []|].
  destruct (pt_dec n (Pt 0 0 0)) as [->|N].
  - exists w. intros m [<-|Hm] Z; [congruence|]. apply Hw; assumption.
  - assert (S : small (fun e => forall m, In m (n :: L) -> m <> Pt 0 0 0 -> dot m (moved w n e) <> 0)).
    { apply small_all. intros m [<-|Hm].
      - destruct (Req_dec (dot n w) 0) as [Z|Z].
        + exists 1. split; [lra|]. intros e He _. rewrite dot_moved, Z. pose proof (dot_self n N). nra.
        + assert (K := small_nonzero (dot n w) (dot n n) Z). revert K. apply small_impl. intros e E _. rewrite dot_moved. exact E.
      - destruct (pt_dec m (Pt 0 0 0)) as [->|Z]; [exists 1; split; [lra|]; congruence|].
        assert (K := small_nonzero (dot m w) (dot m n) (Hw m Hm Z)). revert K. apply small_impl. intros e E _. rewrite dot_moved. exact E. }
    apply small_point in S. destruct S as (e & _ & S). exists (moved w n e). exact S.
Qed.
Lemma generic_near L d : exists w, small (fun e => generic L (moved d w e)).
Proof.
  destruct (generic_exists L) as (w & Hw). exists w. apply small_all. intros n Hn. destruct (pt_dec n (Pt 0 0 0)) as [->|Z]; [exists 1; split; [lra|]; congruence|].
  destruct (Req_dec (dot n d) 0) as [E|E].
  - exists 1. split; [lra|]. intros e He _. rewrite dot_moved, E. specialize (Hw n Hn Z). rewrite Rplus_0_l. apply prod_nonzero; [lra|exact Hw].
  - assert (K := small_nonzero (dot n d) (dot n w) E). revert K. apply small_impl. intros e X _. rewrite dot_moved. exact X.
Qed.

(** *** Sums over a closed surface *)
Fixpoint zsum {A} (f : A -> Z) (l : list A) : Z := match l with [] => 0 | x :: l' => f x + zsum f l' end%Z.
Lemma zsum_app {A} (f : A -> Z) l l' : zsum f (l ++ l') = (zsum f l + zsum f l')%Z.
Proof. induction l as [|x l IH]; cbn [zsum app]; [reflexivity|]. rewrite IH. ring. Qed.
Lemma zsum_perm {A} (f : A -> Z) l l' : Permutation l l' -> zsum f l = zsum f l'.
Proof. induction 1; cbn [zsum]; lia. Qed.
Lemma zsum_ext {A} (f g : A -> Z) l : (forall x, In x l -> f x = g x) -> zsum f l = zsum g l.
Proof. induction l as [|x l IH]; cbn [zsum]; intros H; [reflexivity|]. rewrite (H x (or_introl eq_refl)), IH; [reflexivity|]. intros y Hy. apply H. right. exact Hy. Qed.
Lemma zsum_map {A B} (f : B -> Z) (g : A -> B) l : zsum f (map g l) = zsum (fun a => f (g a)) l.
Proof. induction l as [|x l IH]; cbn [zsum map]; [reflexivity|]. rewrite IH. reflexivity. Qed.
Lemma zsum_flat {A B} (f : B -> Z) (g : A -> list B) l : zsum f (flat_map g l) = zsum (fun a => zsum f (g a)) l.
Proof. induction l as [|x l IH]; cbn [flat_map zsum]; [reflexivity|]. rewrite zsum_app, IH. reflexivity. Qed.
Lemma zsum_plus {A} (f g : A -> Z) l : zsum (fun a => f a + g a)%Z l = (zsum f l + zsum g l)%Z.
Proof. induction l as [|x l IH]; cbn [zsum]; [reflexivity|]. rewrite IH. ring. Qed.
Lemma zsum_opp {A} (f : A -> Z) l : zsum (fun a => - f a)%Z l = (- zsum f l)%Z.
Proof. induction l as [|x l IH]; cbn [zsum]; [reflexivity|]. rewrite IH. ring. Qed.
Lemma closed_zsum {V} (l : list (tri V)) (g : V * V -> Z) : closed l -> (forall a b, g (b, a) = - g (a, b))%Z -> zsum g (flat_map tri_edges l) = 0%Z.
Proof.
  intros C G. assert (E := zsum_perm g _ _ C). rewrite zsum_map in E. rewrite (zsum_ext (fun a => g (flip a)) (fun a => - g a)%Z) in E by (intros [a b] _; apply G).
  rewrite zsum_opp in E. lia.
Qed.

(** *** The signed count *)
Definition seen (p d : pt) (q : tri pt) : Z := cone (vsub (P1 q) p) (vsub (P2 q) p) (vsub (P3 q) p) d.
Definition signed_count (tris : list (tri pt)) (p d : pt) : Z := zsum (seen p d) tris.
Definition edge_cone (p r d : pt) (e : pt * pt) : Z := cone r (vsub (fst e) p) (vsub (snd e) p) d.
Lemma cone_anti r b c d : cone r c b d = (- cone r b c d)%Z.
Proof.
  unfold cone. rewrite <- sig4_neg. rewrite (sig4_swap _ _ (det3 r d b)). f_equal; vec; ring.
Qed.
(** The normals of the planes through the point and an edge. *)
Definition edge_normals (tris : list (tri pt)) (p : pt) : list pt := map (fun e => cross (vsub (fst e) p) (vsub (snd e) p)) (flat_map tri_edges tris).
Lemma in_edges {V} (l : list (tri V)) q e : In q l -> In e (tri_edges q) -> In e (flat_map tri_edges l).
Proof. intros H1 H2. apply in_flat_map. exists q. auto. Qed.
Lemma edge_normal tris p q x y : In q tris -> In (x, y) (tri_edges q) -> In (cross (vsub x p) (vsub y p)) (edge_normals tris p).
Proof. intros H1 H2. unfold edge_normals. apply in_map_iff. exists (x, y). split; [reflexivity|]. apply (in_edges _ q); assumption. Qed.
Lemma apart_off q p : ~ in_triangle q p -> apart (vsub (P1 q) p) (vsub (P2 q) p) (vsub (P3 q) p).
Proof.
  intros H x y z X Y Z S E. apply H. exists x, y, z. repeat (split; [assumption|]). intros i. vec. injection E as E1 E2 E3.
  assert (K : forall s a b c, x * (a - s) + (y * (b - s) + z * (c - s)) = 0 -> s = x * a + y * b + z * c) by (intros s a b c K; nra).
  destruct i; cbn [at_]; apply K; assumption.
Qed.
Lemma det_dot d b c : det3 d b c = dot (cross b c) d.
Proof. vec. ring. Qed.
Lemma generic_normal tris p d q x y : generic (edge_normals tris p) d -> In q tris -> In (x, y) (tri_edges q) ->
  det3 d (vsub x p) (vsub y p) = 0 -> cross (vsub x p) (vsub y p) = Pt 0 0 0.
Proof.
  intros G Hq He Z. destruct (pt_dec (cross (vsub x p) (vsub y p)) (Pt 0 0 0)) as [K|K]; [exact K|]. exfalso.
  apply (G _ (edge_normal tris p q x y Hq He) K). rewrite <- det_dot. exact Z.
Qed.
Lemma cross_zero_det d b c : cross b c = Pt 0 0 0 -> det3 d b c = 0.
Proof. intros E. unfold det3. rewrite E. unfold dot. cbn. ring. Qed.

Lemma signed_count_eq tris p d r : closed tris -> off_surface tris p -> generic (edge_normals tris p) d -> generic (edge_normals tris p) r ->
  (forall q, In q tris -> det3 d r (vsub (P1 q) p) <> 0 /\ det3 d r (vsub (P2 q) p) <> 0 /\ det3 d r (vsub (P3 q) p) <> 0) ->
  signed_count tris p d = signed_count tris p (opp r).
Proof.
  intros C O Gd Gr V. unfold signed_count.
  rewrite (zsum_ext (seen p d) (fun q => zsum (edge_cone p r d) (tri_edges q) + seen p (opp r) q)%Z).
  - rewrite zsum_plus, <- zsum_flat, closed_zsum; [reflexivity|exact C|]. intros a b. unfold edge_cone. cbn [fst snd]. apply cone_anti.
  - intros q Hq. destruct (V q Hq) as (V1 & V2 & V3).
    assert (PA : forall x y, In (x, y) (tri_edges q) -> parts (vsub x p) (vsub y p) d r).
    { intros x y He. split; intros Z; apply cross_zero_det; [apply (generic_normal tris p d q)|apply (generic_normal tris p r q)]; assumption. }
    assert (CR : forall x y, In (x, y) (tri_edges q) -> det3 d (vsub x p) (vsub y p) = 0 -> cross (vsub x p) (vsub y p) = Pt 0 0 0) by (intros x y He; apply (generic_normal tris p d q); assumption).
    assert (I1 : In (P1 q, P2 q) (tri_edges q)) by (left; reflexivity). assert (I2 : In (P2 q, P3 q) (tri_edges q)) by (right; left; reflexivity). assert (I3 : In (P3 q, P1 q) (tri_edges q)) by (right; right; left; reflexivity).
    unfold seen at 1. rewrite (cone_identity _ _ _ d r); auto using apart_off.
    unfold edge_cone, seen. cbn [tri_edges zsum fst snd]. ring.
Qed.
