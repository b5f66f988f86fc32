(** Model of the affine maps between the global and the parametric box of an element.
    Source: /repo/queso/utilities/mapping_utilities.hpp. Simplification: double is R; the debug-only assertions on
    degenerate boxes are not part of the model (a division by zero is then the unspecified value of the Coq reals). *)
From Coq Require Import Reals.
From Verif Require Import Geo GgqModel.
Local Open Scope R_scope.

(** ElementBounds, containers/element_core.hpp:26-30: the two boxes of an element. *)
Record ebounds := EB { eb_global : box; eb_param : box }.

(** detail::ComputeScale, mapping_utilities.hpp:33-42. *)
Definition compute_scale (from to : box) : pt :=
  Pt (Rabs (px (upper to) - px (lower to)) / Rabs (px (upper from) - px (lower from)))
     (Rabs (py (upper to) - py (lower to)) / Rabs (py (upper from) - py (lower from)))
     (Rabs (pz (upper to) - pz (lower to)) / Rabs (pz (upper from) - pz (lower from))).
(** detail::TransformAreaVector, mapping_utilities.hpp:48-53. *)
Definition area_vector (n s : pt) : pt := Pt (px n * py s * pz s) (py n * px s * pz s) (pz n * px s * py s).
(** Math::Norm, utilities/math_utilities.hpp:68-70. *)
Definition norm (v : pt) : R := sqrt (px v * px v + py v * py v + pz v * pz v).
(** ZEROTOL, includes/core_definitions.hpp:68. *)
Definition zerotol : R := / 10 ^ 14.
(** detail::TransformAreaData, mapping_utilities.hpp:59-69. *)
Definition area_data (n s : pt) : pt * R :=
  let t := area_vector n s in
  let m := norm t in
  (if Rlt_dec zerotol m then Pt (px t * (1 / m)) (py t * (1 / m)) (pz t * (1 / m)) else Pt 0 0 0, m).

(** ToParametric and ToGlobal of a point, mapping_utilities.hpp:77-95. *)
Definition to_parametric (p : pt) (b : ebounds) : pt :=
  let s := compute_scale (eb_global b) (eb_param b) in
  Pt ((px p - px (lower (eb_global b))) * px s + px (lower (eb_param b)))
     ((py p - py (lower (eb_global b))) * py s + py (lower (eb_param b)))
     ((pz p - pz (lower (eb_global b))) * pz s + pz (lower (eb_param b))).
Definition to_global (p : pt) (b : ebounds) : pt :=
  let s := compute_scale (eb_param b) (eb_global b) in
  Pt ((px p - px (lower (eb_param b))) * px s + px (lower (eb_global b)))
     ((py p - py (lower (eb_param b))) * py s + py (lower (eb_global b)))
     ((pz p - pz (lower (eb_param b))) * pz s + pz (lower (eb_global b))).
(** DetJ, mapping_utilities.hpp:100-104. *)
Definition det_j (b : ebounds) : R :=
  let s := compute_scale (eb_param b) (eb_global b) in px s * py s * pz s.

(** ToParametric and ToGlobal of a volume integration point, mapping_utilities.hpp:111-134. *)
Definition ip_to_parametric (q : ipoint) (b : ebounds) : ipoint := IP (to_parametric (ip_pos q) b) (ip_weight q / det_j b).
Definition ip_to_global (q : ipoint) (b : ebounds) : ipoint := IP (to_global (ip_pos q) b) (ip_weight q * det_j b).

(** BoundaryIntegrationPoint, containers/boundary_integration_point.hpp. *)
Record bpoint := BP { bp_pos : pt; bp_weight : R; bp_normal : pt }.
(** ToParametric and ToGlobal of a boundary integration point, mapping_utilities.hpp:141-168. *)
Definition bp_to_parametric (q : bpoint) (b : ebounds) : bpoint :=
  let '(n, a) := area_data (bp_normal q) (compute_scale (eb_global b) (eb_param b)) in
  BP (to_parametric (bp_pos q) b) (bp_weight q * a) n.
Definition bp_to_global (q : bpoint) (b : ebounds) : bpoint :=
  let '(n, a) := area_data (bp_normal q) (compute_scale (eb_param b) (eb_global b)) in
  BP (to_global (bp_pos q) b) (bp_weight q * a) n.
