(** Model of the integration points of triangles.
    Source: /repo/queso/utilities/triangle_utilities.hpp:113-192 and triangle_gauss_legendre_integration_points.hpp.
    Simplification: double is R; the decimal constants of the tables are taken literally. *)
From Coq Require Import Reals QArith Qreals List.
From Verif Require Import Geo MappingModel TrimmedQuadModel MeshModel MeshGeoModel.
Import ListNotations.
Local Open Scope Q_scope.

(** A point of a table: two coordinates in the reference triangle and the weight. *)
Definition tip := (Q * Q * Q)%type.
(** A decimal constant 0.n with k digits. *)
Definition dec (n : Z) (k : nat) : Q := n # (Pos.pow 10 (Pos.of_nat k)).

(** triangle_gauss_legendre_integration_points.hpp:35-42 *)
Definition tri_points1 : list tip := [(1#3, 1#3, 1#2)].
(** triangle_gauss_legendre_integration_points.hpp:56-65 *)
Definition tri_points2 : list tip := [(1#6, 1#6, 1#6); (2#3, 1#6, 1#6); (1#6, 2#3, 1#6)].
(** triangle_gauss_legendre_integration_points.hpp:79-97 *)
Definition tri_points3 : list tip :=
  let wa := dec 54975871827661 15 in
  let wb := dec 1116907948390055 16 in
  let Na1 := dec 816847572980459 15 in
  let Nb1 := dec 108103018168070 15 in
  let Na2 := dec 91576213509771 15 in
  let Nb2 := dec 445948490915965 15 in
  [(Na2, Na2, wa); (Na1, Na2, wa); (Na2, Na1, wa); (Nb2, Nb2, wb); (Nb1, Nb2, wb); (Nb2, Nb1, wb)].
(** triangle_gauss_legendre_integration_points.hpp:111-139 *)
Definition tri_points4 : list tip :=
  let wa := dec 25422453185103408460 21 in
  let wb := dec 58393137863189683013 21 in
  let wc := dec 41425537809186787597 21 in
  let N1 := dec 87382197101699554332 20 in
  let N2 := dec 63089014491502228340 21 in
  let N3 := dec 50142650965817915742 20 in
  let N4 := dec 24928674517091042129 20 in
  let N5 := dec 53145049844816947353 21 in
  let N6 := dec 31035245103378440542 20 in
  let N7 := dec 63650249912139864723 20 in
  [(N1, N2, wa); (N2, N1, wa); (N2, N2, wa); (N3, N4, wb); (N4, N3, wb); (N4, N4, wb);
   (N5, N6, wc); (N6, N5, wc); (N5, N7, wc); (N6, N7, wc); (N7, N5, wc); (N7, N6, wc)].
(** GetIntegrationPoints, triangle_utilities.hpp:115-130; None: exception. *)
Definition tri_table (meth : nat) : option (list tip) :=
  match meth with
  | 0%nat => Some tri_points1
  | 1%nat => Some tri_points2
  | 2%nat => Some tri_points3
  | 3%nat => Some tri_points4
  | 4%nat => Some tri_points4
  | _ => None
  end.

Local Open Scope R_scope.
(** ShapeFunctionValue, triangle_utilities.hpp:132-143, for the indices 0, 1, 2. *)
Definition shape (i : nat) (p : R * R) : R :=
  match i with
  | 0%nat => 1 - fst p - snd p
  | 1%nat => fst p
  | _ => snd p
  end.
(** BoundaryIntegrationPoint, containers/boundary_integration_point.hpp. *)
Record bip := BIP { b_point : pt; b_weight : R; b_normal : pt }.
(** One point, triangle_utilities.hpp:174-188. *)
Definition global_ip (t : tri pt) (q : tip) : bip :=
  let '(x, y, w) := q in
  let p := (Q2R x, Q2R y) in
  let coord f := shape 0 p * f (P1 t) + shape 1 p * f (P2 t) + shape 2 p * f (P3 t) in
  BIP (Pt (coord px) (coord py) (coord pz)) (2 * Q2R w * tri_area t) (tri_normal t).
(** GetIPsGlobal, triangle_utilities.hpp:161-192; None: exception. *)
Definition get_ips_global (t : tri pt) (meth : nat) : option (list bip) := option_map (map (global_ip t)) (tri_table meth).
