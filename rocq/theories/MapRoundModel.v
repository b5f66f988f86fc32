(** Model of the affine maps between the two boxes of an element in double precision.
    Source: /repo/queso/utilities/mapping_utilities.hpp:33-134.
    MappingModel is the same code with real numbers. Doubles and rounding are those of GridRoundModel. Simplifications: results beyond the
    largest double are not infinite; the debug-only assertions on degenerate boxes are not part of the model; boundary points are left out. *)
From Coq Require Import Reals.
From Flocq Require Import Core.
From Verif Require Import Geo GgqModel MappingModel GridRoundModel.
Local Open Scope R_scope.

(** One component of detail::ComputeScale, mapping_utilities.hpp:39-41; the absolute value is exact. *)
Definition scale_d (from to : box) (a : axis) : R :=
  fl (Rabs (fl (at_ a (upper to) - at_ a (lower to))) / Rabs (fl (at_ a (upper from) - at_ a (lower from)))).
Section Map.
(** If the compiler contracts a product and a sum to one operation, the product is not rounded. *)
Variable contract : bool.
(** One coordinate of the map, mapping_utilities.hpp:80-82 and 92-94. *)
Definition coord_d (from to : box) (a : axis) (x : R) : R :=
  let d := fl (x - at_ a (lower from)) in
  let s := scale_d from to a in
  fl ((if contract then d * s else fl (d * s)) + at_ a (lower to)).
Definition map_d (from to : box) (p : pt) : pt :=
  Pt (coord_d from to AX (px p)) (coord_d from to AY (py p)) (coord_d from to AZ (pz p)).
(** ToParametric and ToGlobal of a point, mapping_utilities.hpp:77-95. *)
Definition to_parametric_d (p : pt) (b : ebounds) : pt := map_d (eb_global b) (eb_param b) p.
Definition to_global_d (p : pt) (b : ebounds) : pt := map_d (eb_param b) (eb_global b) p.
(** DetJ, mapping_utilities.hpp:100-104. *)
Definition det_j_d (b : ebounds) : R :=
  let s := scale_d (eb_param b) (eb_global b) in fl (fl (s AX * s AY) * s AZ).
(** ToParametric and ToGlobal of a volume integration point, mapping_utilities.hpp:111-134. *)
Definition ip_to_parametric_d (q : ipoint) (b : ebounds) : ipoint := IP (to_parametric_d (ip_pos q) b) (fl (ip_weight q / det_j_d b)).
Definition ip_to_global_d (q : ipoint) (b : ebounds) : ipoint := IP (to_global_d (ip_pos q) b) (fl (ip_weight q * det_j_d b)).
End Map.
