(** Specification: what is inside a closed surface of triangles. *)
From Coq Require Import Reals List Arith Bool.
From Verif Require Import Geo MappingModel TrimmedQuadModel MeshModel MeshGeoModel SatProofs GeoQueryProofs RayProofs.
Import ListNotations.
Local Open Scope R_scope.

(** The points of the ray from p in direction d. *)
Definition walk (p d : pt) (t : R) : pt := vadd p (vscale t d).
(** The point is not on the surface. *)
Definition off_surface (tris : list (tri pt)) (p : pt) : Prop := forall q, In q tris -> ~ in_triangle q p.
(** The ray passes through the interior of a triangle. *)
Definition pierces (p d : pt) (q : tri pt) : Prop :=
  exists t u v, 0 < t /\ 0 < u /\ 0 < v /\ u + v < 1 /\ walk p d t = plane_point q u v.
(** The ray does not meet an edge. *)
Definition on_rim (u v : R) : Prop := 0 <= u /\ 0 <= v /\ u + v <= 1 /\ (u = 0 \/ v = 0 \/ u + v = 1).
Definition avoids (tris : list (tri pt)) (p d : pt) : Prop :=
  d <> Pt 0 0 0 /\ forall q t u v, In q tris -> 0 <= t -> on_rim u v -> walk p d t <> plane_point q u v.
(** It passes through an odd number of triangles. *)
Definition odd_crossings (tris : list (tri pt)) (p d : pt) : Prop :=
  exists ids, NoDup ids /\ (forall i, In i ids <-> exists q, nth_error tris i = Some q /\ pierces p d q) /\ Nat.odd (length ids) = true.
(** The surface is around the point: some ray that meets no edge leaves through an odd number of triangles. *)
Definition surrounded (tris : list (tri pt)) (p : pt) : Prop := exists d, avoids tris p d /\ odd_crossings tris p d.
(** The point is not (up to ZEROTOL) on a triangle: its distance from every triangle, extended by ZEROTOL in its coordinates, is
    more than ZEROTOL. *)
Definition clear_of (tris : list (tri pt)) (p : pt) : Prop :=
  forall q u v, In q tris -> - zerotol <= u -> - zerotol <= v -> u + v <= 1 + zerotol -> zerotol < norm (vsub (plane_point q u v) p).
