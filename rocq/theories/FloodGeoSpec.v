(** Specification: what the classification of the cells should say about a closed surface. *)
From Coq Require Import Reals List Arith Bool ZArith.
From Verif Require Import Geo GridModel GridGeoModel MappingModel TrimmedQuadModel MeshModel MeshGeoModel GeoQueryModel SatProofs GeoQueryProofs RayProofs CastProofs ParitySpec ParityPath.
Import ListNotations.
Local Open Scope R_scope.

(** The triangles face outwards: the points just behind the interior of a triangle, seen along its normal, are inside the surface, those
    just in front of it are outside. *)
Definition outward (tris : list (tri pt)) : Prop :=
  forall q u v d, In q tris -> 0 < u -> 0 < v -> u + v < 1 -> 0 < dot (normal_dir q) d ->
  exists e0, 0 < e0 /\ forall e, 0 < e < e0 ->
    surrounded tris (walk (plane_point q u v) d (- e)) /\ ~ surrounded tris (walk (plane_point q u v) d e).
(** The triangle is large and steep enough to be looked at from the point. *)
Definition looked_at (p : pt) (tol : R) (q : tri pt) : Prop :=
  large q /\ 100 * tol <= Rabs (dot (unit_dir (vsub (tri_center q) p)) (normal_dir q)).
(** The lines of sight from p to the triangles of a section of the surface in a box: they end in the box, and no triangle that they
    meet is (nearly) parallel to them. *)
Definition well_seen (sec : list (tri pt)) (lo hi p : pt) (tol : R) : Prop :=
  forall q, In q sec -> looked_at p tol q ->
    in_box lo hi tol (tri_center q) /\
    forall q' s, In q' sec -> 0 <= s <= 1 -> in_triangle q' (between p (tri_center q) s) -> steep (Ray p (unit_dir (vsub (tri_center q) p))) q'.
(** One of the lines of sight, extended to a ray, meets no edge of the triangles of the section (up to ZEROTOL). *)
Definition decisive (sec : list (tri pt)) (p : pt) (tol : R) : Prop :=
  exists q, In q sec /\ looked_at p tol q /\ forall q', In q' sec -> ~ grazes (Ray p (unit_dir (vsub (tri_center q) p))) q'.
