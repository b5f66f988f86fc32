(** Model of the cell boxes of the background grid in double precision.
    Source: /repo/queso/containers/grid_indexer.hpp:96-148, 451-460; /repo/queso/utilities/math_utilities.hpp:51-53, 92-95.
    GridGeoModel is the same code with real numbers. Doubles are the real numbers of the format binary64 (library Flocq); every operation
    rounds to the nearest double, ties to even. Simplification: results beyond the largest double are not infinite; NaN does not occur. *)
From Coq Require Import Reals ZArith.
From Flocq Require Import Core.
From Verif Require Import Geo GridModel GridGeoModel.
Local Open Scope R_scope.

(** The doubles, and rounding to a double. *)
Definition double_exp : Z -> Z := FLT_exp (-1074) 53.
Definition is_double (x : R) : Prop := generic_format radix2 double_exp x.
Definition fl (x : R) : R := round radix2 double_exp ZnearestE x.
(** static_cast<double>(n). *)
Definition to_double (n : nat) : R := fl (IZR (Z.of_nat n)).

Section Axis.
(** If the compiler contracts a product and a sum to one operation, the product is not rounded. *)
Variable contract : bool.
(** delta[a], grid_indexer.hpp:454-456. *)
Definition delta_d (lb ub : R) (n : nat) : R := fl (Rabs (fl (ub - lb)) / to_double n).
(** One coordinate of rLowerBound + MultElementWise(delta, x), grid_indexer.hpp:457-458. *)
Definition place (lb ub : R) (n : nat) (x : R) : R :=
  fl (lb + (if contract then delta_d lb ub n * x else fl (delta_d lb ub n * x))).
(** One coordinate of the two corners of a cell, grid_indexer.hpp:452, 457-458. *)
Definition low (lb ub : R) (n i : nat) : R := place lb ub n (to_double i).
Definition high (lb ub : R) (n i : nat) : R := place lb ub n (fl (1 + to_double i)).
(** GetBoundingBoxFromIndex, grid_indexer.hpp:451-460. *)
Definition cell_box_d (g : grid) (b : box) (c : c3) : box :=
  let l a := low (at_ a (lower b)) (at_ a (upper b)) (n_at a g) (c_at a c) in
  let h a := high (at_ a (lower b)) (at_ a (upper b)) (n_at a g) (c_at a c) in
  Box (Pt (l AX) (l AY) (l AZ)) (Pt (h AX) (h AY) (h AZ)).
(** GetBoundingBoxXYZFromIndex(Index), grid_indexer.hpp:96-99. *)
Definition box_xyz_d (gi : indexer) (i : nat) : box := cell_box_d (gi_grid gi) (gi_xyz gi) (mat_of (gi_grid gi) i).
(** GetBoundingBoxUVWFromIndex(Index), grid_indexer.hpp:120-126. *)
Definition box_uvw_d (gi : indexer) (i : nat) : box :=
  if gi_bspline gi then cell_box_d (gi_grid gi) (gi_uvw gi) (mat_of (gi_grid gi) i) else gi_uvw gi.
End Axis.
