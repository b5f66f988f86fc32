(** Specification: B-splines by the recursion of Cox and de Boor. *)
From Coq Require Import Reals List Arith Bool.
From Verif Require Import Geo GridModel GridGeoModel BSplineModel.
Import ListNotations.
Local Open Scope R_scope.

(** The value at u of the polynomial that equals the i-th B-spline of degree k on the knot span j; 0 / 0 is 0. *)
Definition ratio (a b : R) : R := if Req_EM_T b 0 then 0 else a / b.
Fixpoint basis (T : nat -> R) (j k i : nat) (u : R) : R :=
  match k with
  | O => if (i =? j)%nat then 1 else 0
  | S k' => ratio (u - T i) (T (i + k)%nat - T i) * basis T j k' i u + ratio (T (i + k + 1)%nat - u) (T (i + k + 1)%nat - T (i + 1)%nat) * basis T j k' (i + 1) u
  end.
Fixpoint upto (n : nat) (f : nat -> R) : R := match n with O => 0 | S n => upto n f + f n end.
(** The knots: either the ends are repeated, or the spacing is the same everywhere. *)
Definition spec_knot (p n : nat) (lu uu : R) (open : bool) (i : nat) : R :=
  let du := (uu - lu) / INR n in if open then lu + INR (Nat.min n (i - p)) * du else lu + (INR i - INR p) * du.
(** The value of the spline at u, which is in the span j. *)
Definition knot (s : bspline) (i : nat) : R := nth i (bs_t s) 0.
Definition in_span (s : bspline) (j : nat) (u : R) : Prop :=
  (bs_k s <= j < bs_n (bs_t s) (bs_k s))%nat /\ knot s j < knot s (j + 1) /\ knot s j <= u <= knot s (j + 1).
Definition value_at (s : bspline) (j : nat) (u : R) : R := upto (bs_n (bs_t s) (bs_k s)) (fun i => nth i (bs_c s) 0 * basis (knot s) j (bs_k s) i u).
(** The value of the volume: the sum over all control points of the products of the B-splines. *)
Definition volume_at (v : volume) (ju jv jw : nat) (u : pt) : pt :=
  let f a := upto (bs_n (bs_t (spline_w v)) (bs_k (spline_w v))) (fun k => upto (bs_n (bs_t (spline_v v)) (bs_k (spline_v v))) (fun j => upto (bs_n (bs_t (spline_u v)) (bs_k (spline_u v))) (fun i =>
      match nth_error (control_points v) ((k * length (bs_c (spline_v v)) + j) * length (bs_c (spline_u v)) + i) with Some c => at_ a c | None => 0 end
      * (basis (knot (spline_u v)) ju (bs_k (spline_u v)) i (px u) * basis (knot (spline_v v)) jv (bs_k (spline_v v)) j (py u) * basis (knot (spline_w v)) jw (bs_k (spline_w v)) k (pz u))))) in
  Pt (f AX) (f AY) (f AZ).
(** The average of k knots that belongs to the coefficient i. *)
Definition average (T : nat -> R) (k i : nat) : R := upto k (fun m => T (i + 1 + m)%nat) / INR k.
