(** Property C35: the tolerance-based point orderings. *)
From Coq Require Import QArith Qabs Lqa.
From Verif Require Import PointOrderModel PointOrderProofs.
Local Open Scope Q_scope.

(** On a point set whose coordinates are pairwise equal or further apart than the
    tolerance, the ordering for vertices is the lexicographic order: a strict weak
    ordering that identifies exactly the points with equal coordinates. *)
Theorem C35_vertices_ordered : forall tol S, 0 < tol -> apart3 tol S ->
  strict_weak_order S (less3 tol) /\
  (forall a b, S a -> S b -> (less3 tol a b = true <-> lex3 a b)) /\
  (forall a b, S a -> S b -> (less3 tol a b = false /\ less3 tol b a = false <-> same3 a b)).
Proof. exact less3_ok. Qed.
Print Assumptions C35_vertices_ordered.

(** The same for the ordering of the points on a plane. *)
Theorem C35_plane_points_ordered : forall tol S, 0 < tol -> apart2 tol S ->
  strict_weak_order S (less2 tol) /\
  (forall a b, S a -> S b -> (less2 tol a b = true <-> lex2 a b)) /\
  (forall a b, S a -> S b -> (less2 tol a b = false /\ less2 tol b a = false <-> same2 a b)).
Proof. exact less2_ok. Qed.
Print Assumptions C35_plane_points_ordered.

(** On all points both are at least asymmetric (hence irreflexive). *)
Lemma asymmetric tol : 0 < tol ->
  (forall a b, less3 tol a b = true -> less3 tol b a = false) /\
  (forall a b, less2 tol a b = true -> less2 tol b a = false).
Proof. intros T. split; intros a b; [apply less3_asym | apply less2_asym]; exact T. Qed.
Theorem C35_asymmetric : forall tol, 0 < tol ->
  (forall a b, less3 tol a b = true -> less3 tol b a = false) /\
  (forall a b, less2 tol a b = true -> less2 tol b a = false).
Proof. exact asymmetric. Qed.
Print Assumptions C35_asymmetric.

(** For every tolerance both orderings have cycles, so they are not strict weak
    orderings on all points; and the one for vertices does not distinguish points
    whose x differs by exactly the tolerance, however far apart they are. *)
Lemma not_swo {P} (lt : P -> P -> bool) : (forall a b, lt a b = true -> lt b a = false) ->
  (exists a b c, lt a b = true /\ lt b c = true /\ lt c a = true) -> ~ strict_weak_order (fun _ => True) lt.
Proof.
  intros A [a [b [c [H1 [H2 H3]]]]] W.
  assert (H := swo_transitive _ _ W a b c I I I H1 H2). apply A in H3. congruence.
Qed.
Lemma refuted tol : 0 < tol ->
  ~ strict_weak_order (fun _ => True) (less3 tol) /\ ~ strict_weak_order (fun _ => True) (less2 tol) /\
  (forall y z y' z', less3 tol (QPt 0 y z) (QPt tol y' z') = false /\ less3 tol (QPt tol y' z') (QPt 0 y z) = false).
Proof.
  intros T. repeat split.
  - apply not_swo; [intros a b; apply less3_asym, T | apply less3_cycle, T].
  - apply not_swo; [intros a b; apply less2_asym, T | apply less2_cycle, T].
  - apply less3_blind, T.
  - apply less3_blind, T.
Qed.
Theorem C35_refuted : forall tol, 0 < tol ->
  ~ strict_weak_order (fun _ => True) (less3 tol) /\ ~ strict_weak_order (fun _ => True) (less2 tol) /\
  (forall y z y' z', less3 tol (QPt 0 y z) (QPt tol y' z') = false /\ less3 tol (QPt tol y' z') (QPt 0 y z) = false).
Proof. exact refuted. Qed.
Print Assumptions C35_refuted.

(** The corners of a box are such a set; so are two points that agree in x. *)
Definition corners (p : qpt) : Prop := exists x y z, p = QPt x y z /\
  (x = 0 \/ x = 3#2) /\ (y = -1 \/ y = 2) /\ (z = 1#1000 \/ z = 7).
Example C35_example : apart3 snaptol corners /\ corners (QPt 0 2 7) /\ corners (QPt 0 (-1) 7) /\
  less3 snaptol (QPt 0 (-1) 7) (QPt 0 2 (1#1000)) = true /\ less3 snaptol (QPt 0 2 (1#1000)) (QPt 0 (-1) 7) = false /\
  apart2 (1#1000) (fun p => p = QPt2 0 1 \/ p = QPt2 0 2) /\ less2 (1#1000) (QPt2 0 1) (QPt2 0 2) = true.
Proof.
  split.
  - intros a b (x & y & z & -> & X & Y & Z) (x' & y' & z' & -> & X' & Y' & Z'). cbn [qx qy qz]. unfold apart.
    destruct X as [-> | ->], X' as [-> | ->], Y as [-> | ->], Y' as [-> | ->], Z as [-> | ->], Z' as [-> | ->];
      (split; [|split]); first [left; reflexivity | right; reflexivity].
  - split; [exists 0, 2, 7; auto|]. split; [exists 0, (-1), 7; auto|].
    split; [reflexivity|]. split; [reflexivity|]. split; [|reflexivity].
    intros a b [-> | ->] [-> | ->]; cbn [q0 q1]; unfold apart; split; first [left; reflexivity | right; reflexivity].
Qed.
