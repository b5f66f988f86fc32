(** The tolerance-based point orderings that are used as comparison functions of
    std::map and std::set.  Simplification: double is idealised by exact rational
    numbers (so that the functions can be executed); rounding, NaN and infinities
    are not modelled. *)
From Coq Require Import QArith Qabs.
Local Open Scope Q_scope.

(** a < b on double. *)
Definition qltb (a b : Q) : bool := negb (Qle_bool b a).

(** PointType, includes/core_definitions.hpp:34, with rational coordinates. *)
Record qpt := QPt { qx : Q; qy : Q; qz : Q }.
(** Point2DType, includes/core_definitions.hpp:35, with rational coordinates. *)
Record qpt2 := QPt2 { q0 : Q; q1 : Q }.

(** SNAPTOL, includes/core_definitions.hpp:67. *)
Definition snaptol : Q := 1 # 1000000000000.

(** PointComparison::operator(), io/io_utilities.h:130-147; the tolerance is SNAPTOL there. *)
Definition less3 (tol : Q) (a b : qpt) : bool :=
  let dx := qx a - qx b in
  let dy := qy a - qy b in
  let dz := qz a - qz b in
  if qltb (Qabs dx) tol then
    if qltb (Qabs dy) tol then qltb dz (- tol)
    else qltb dy (- tol)
  else qltb dx (- tol).

(** PointComparison::operator(), embedding/trimmed_domain_on_plane.h:63-75; the
    tolerance is the snap tolerance of the plane there. *)
Definition less2 (tol : Q) (a b : qpt2) : bool :=
  if qltb (Qabs (q0 a - q0 b)) tol then qltb (q1 a) (q1 b - tol)
  else Qle_bool (q0 a) (q0 b - tol).
