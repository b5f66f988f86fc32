(** Model of the maps of boundary integration points between the two boxes of an element in double precision.
    Source: /repo/queso/utilities/mapping_utilities.hpp:48-69 and 141-168, utilities/math_utilities.hpp:68-70 and 151-157.
    MappingModel is the same code with real numbers. Doubles and rounding are those of GridRoundModel. Simplification: results beyond the
    largest double are not infinite. *)
From Coq Require Import Reals.
From Verif Require Import Geo GgqModel MappingModel GridRoundModel ClipRoundModel MapRoundModel.
Local Open Scope R_scope.

(** detail::TransformAreaVector with the scale from one box to the other, mapping_utilities.hpp:48-53. *)
Definition area_vector_d (n : pt) (from to : box) : pt :=
  let s := scale_d from to in
  Pt (fl (fl (px n * s AY) * s AZ)) (fl (fl (py n * s AX) * s AZ)) (fl (fl (pz n * s AX) * s AY)).
Section Area.
(** If the compiler contracts a product and a sum to one operation, the product is not rounded. *)
Variable contract : bool.
Definition square_d (x : R) : R := if contract then x * x else fl (x * x).
(** Math::Norm, math_utilities.hpp:68-70; std::sqrt is correctly rounded. With contraction, the first product is rounded and the other two are not. *)
Definition norm_d (v : pt) : R := fl (sqrt (fl (fl (fl (px v * px v) + square_d (py v)) + square_d (pz v)))).
(** detail::TransformAreaData, mapping_utilities.hpp:59-69; operator*=, math_utilities.hpp:151-157. *)
Definition area_data_d (n : pt) (from to : box) : pt * R :=
  let t := area_vector_d n from to in
  let m := norm_d t in
  let r := fl (1 / m) in
  (if Rlt_dec zerotol_d m then Pt (fl (px t * r)) (fl (py t * r)) (fl (pz t * r)) else Pt 0 0 0, m).
(** ToParametric and ToGlobal of a boundary integration point, mapping_utilities.hpp:141-168. *)
Definition bp_to_parametric_d (q : bpoint) (b : ebounds) : bpoint :=
  let '(n, a) := area_data_d (bp_normal q) (eb_global b) (eb_param b) in
  BP (to_parametric_d contract (bp_pos q) b) (fl (bp_weight q * a)) n.
Definition bp_to_global_d (q : bpoint) (b : ebounds) : bpoint :=
  let '(n, a) := area_data_d (bp_normal q) (eb_param b) (eb_global b) in
  BP (to_global_d contract (bp_pos q) b) (fl (bp_weight q * a)) n.
End Area.
