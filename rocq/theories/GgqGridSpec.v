(** Specification: splines over the cells of a grid, and their integrals. *)
From Coq Require Import Reals List Arith.
From Verif Require Import Geo GridModel SplineSpec.
Import ListNotations.
Local Open Scope R_scope.

(** The function g is, between lo and up, a spline of degree p with r continuous derivatives whose knots divide this interval into n
    equal parts; P k are its coefficients in part k. *)
Definition grid_spline (p r n : nat) (lo up : R) (P : nat -> list R) (g : R -> R) : Prop :=
  spline_pieces p r n P /\ forall k t, (k < n)%nat -> 0 <= t <= 1 -> g (lo + (up - lo) / INR n * (INR k + t)) = value (P k) t.
(** G is an antiderivative of g between lo and up. *)
Definition antiderivative_on (lo up : R) (G g : R -> R) : Prop :=
  (forall x, lo <= x <= up -> continuity_pt G x) /\ forall x, lo < x < up -> derivable_pt_lim G x (g x).
(** Product of functions of the three coordinates, and its integral over a box. *)
Definition product (g : axis -> R -> R) (p : pt) : R := g AX (px p) * g AY (py p) * g AZ (pz p).
Definition box_integral (G : axis -> R -> R) (b : box) : R :=
  (G AX (px (upper b)) - G AX (px (lower b))) * (G AY (py (upper b)) - G AY (py (lower b))) * (G AZ (pz (upper b)) - G AZ (pz (lower b))).
(** Allowed error of a one-dimensional rule, relative to the size of the spline: rounding of the tables, and points that are moved by
    up to 1e-10 in cells of width w. *)
Definition axis_error (w : R) : R := / 10 ^ 13 + / 10 ^ 9 / w.
