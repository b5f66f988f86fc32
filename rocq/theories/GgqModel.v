(** Model of the distribution of the generalized Gauss points of a box to its elements.
    Source: /repo/queso/quadrature/multiple_elements.hpp. Simplification: double is R. *)
From Coq Require Import Reals List.
From Verif Require Import Geo GridModel GridGeoModel.
Import ListNotations.
Local Open Scope R_scope.

(** EPS2, EPS3: includes/core_definitions.hpp:84-85. *)
Definition eps2 : R := / 10 ^ 10.
Definition eps3 : R := / 10 ^ 12.

(** a one-dimensional rule: (position, weight) on (0,1); Ip1DVectorType, integration_points_factory_1d.h:46. *)
Definition rule := list (R * R).

(** body of the loop over the 1D points, multiple_elements.hpp:268-279: [lo],[up] bounds of the element,
    [bl],[bu] bounds of the box in one direction. *)
Definition place (lo up bl bu : R) (q : R * R) : rule :=
  let position := bl + (bu - bl) * fst q in
  let weight := Rabs (bu - bl) * snd q in
  if Rle_dec (lo - eps3) position then
    if Rlt_dec position (up - eps3) then
      if Rlt_dec position (lo + eps2) then [(lo + 2 * eps3, weight)] else [(position, weight)]
    else []
  else [].
(** tmp_integration_points[direction], multiple_elements.hpp:258-281. *)
Definition kept (lo up bl bu : R) (r : rule) : rule := flat_map (place lo up bl bu) r.

(** IntegrationPoint: position and weight, containers/integration_point.hpp. *)
Record ipoint := IP { ip_pos : pt; ip_weight : R }.

(** the triple loop, multiple_elements.hpp:289-299. *)
Definition tensor (u v w : rule) : list ipoint :=
  flat_map (fun a => flat_map (fun b => map (fun c => IP (Pt (fst a) (fst b) (fst c)) (snd a * snd b * snd c)) w) v) u.

(** update of the bounds of the box, multiple_elements.hpp:82 and 223-227. *)
Definition merge_box (a b : box) : box :=
  Box (Pt (Rmin (px (lower a)) (px (lower b))) (Rmin (py (lower a)) (py (lower b))) (Rmin (pz (lower a)) (pz (lower b))))
      (Pt (Rmax (px (upper a)) (px (upper b))) (Rmax (py (upper a)) (py (upper b))) (Rmax (pz (upper a)) (pz (upper b)))).
Definition bounds_of (bx : nat -> box) (l : list nat) : box :=
  match l with
  | [] => Box (Pt 0 0 0) (Pt 0 0 0)
  | e :: l' => fold_left (fun acc i => merge_box acc (bx i)) l' (bx e)
  end.

(** AssembleGGQRulesOnBox for one element, multiple_elements.hpp:252-300; [r a] is the rule returned by GetGGQ for
    direction a (the same for every element of the box). *)
Definition element_points (eb bb : box) (r : axis -> rule) : list ipoint :=
  let t a := kept (at_ a (lower eb)) (at_ a (upper eb)) (at_ a (lower bb)) (at_ a (upper bb)) (r a) in
  tensor (t AX) (t AY) (t AZ).

(** AssembleGGQRulesOnBox: the points of every element of the box. *)
Definition box_points (bx : nat -> box) (l : list nat) (r : axis -> rule) : list (nat * list ipoint) :=
  map (fun i => (i, element_points (bx i) (bounds_of bx l) r)) l.
