(** Model of the clipping of triangles by boxes in double precision.
    Source: /repo/queso/embedding/clipper.h, clipper.cpp, polygon.h, polygon.cpp.
    ClipModel is the same code with real numbers. Doubles and rounding are those of GridRoundModel: every operation rounds to the nearest
    double. The two exceptions are told apart. Simplification: results beyond the largest double are not infinite; NaN does not occur. *)
From Coq Require Import Reals List Arith Bool.
From Flocq Require Import Core.
From Verif Require Import Geo MappingModel TrimmedQuadModel MeshModel MeshGeoModel ClipModel GridRoundModel.
Import ListNotations.
Local Open Scope R_scope.

(** The outcome of a call: a value; the exception of clipper.cpp:207; the exception of polygon.cpp:23, 32 and 41. *)
Inductive outcome (A : Type) := Done (x : A) | NoIntersection | Full.
Arguments Done {A}. Arguments NoIntersection {A}. Arguments Full {A}.
Definition then_ {A B} (x : outcome A) (f : A -> outcome B) : outcome B :=
  match x with Done a => f a | NoIntersection => NoIntersection | Full => Full end.

(** ZEROTOL, core_definitions.hpp:68, and 10.0*ZEROTOL, clipper.h:113. *)
Definition zerotol_d : R := fl (/ 10 ^ 14).
Definition plane_tol_d : R := fl (10 * zerotol_d).
(** The distance in front of the plane, clipper.cpp:181-184. *)
Definition plane_dist_d (k : nat) (pos : R) (p : pt) : R :=
  if Nat.even k then fl (pos - at_ (axis_of k) p) else fl (at_ (axis_of k) p - pos).
(** ClassifyPointToPlane, clipper.cpp:176-194. *)
Definition classify_d (k : nat) (pos eps : R) (p : pt) : side :=
  let d := plane_dist_d k pos p in
  if Rlt_dec eps d then Front else if Rlt_dec d (- eps) then Behind else On.
(** AddVertex, polygon.cpp:22-46. *)
Definition poly_add_d (v : cvert) (cur : list cvert) : outcome (list cvert) :=
  if (poly_size <=? length cur)%nat then Full else Done (cur ++ [v]).

Section Clip.
(** If the compiler contracts a product and a sum to one operation, the product is not rounded. *)
Variable contract : bool.
(** One coordinate of rA + t*(rB - rA), clipper.cpp:210-212. *)
Definition between_d (t a b : R) : R := fl (a + (if contract then t * fl (b - a) else fl (t * fl (b - a)))).
(** FindIntersectionPointOnPlane, clipper.cpp:196-221. *)
Definition find_intersection_d (a b : pt) (k : nat) (pos : R) : outcome pt :=
  let i := axis_of k in
  let t := fl (fl (pos - at_ i a) / fl (at_ i b - at_ i a)) in
  if (if Rle_dec 0 t then if Rle_dec t 1 then true else false else false) then
    let ret := Pt (between_d t (px a) (px b)) (between_d t (py a) (py b)) (between_d t (pz a) (pz b)) in
    Done (match classify_d k pos zerotol_d ret with On => ret | _ => set_at i pos ret end)
  else NoIntersection.
(** A new vertex on the plane, clipper.cpp:126-127 and 150-151. *)
Definition add_crossing_d (k : nat) (pos : R) (a b : cvert) (cur : list cvert) : outcome (list cvert) :=
  then_ (find_intersection_d (c_pos a) (c_pos b) k pos) (fun p => poly_add_d (set_on k (CV p (shared_on k a b))) cur).
(** The loop body, clipper.cpp:115-169. *)
Definition clip_edge_d (k : nat) (pos : R) (a b : cvert) (cur : list cvert) : outcome (list cvert) :=
  let a_side := classify_d k pos plane_tol_d (c_pos a) in
  match classify_d k pos plane_tol_d (c_pos b) with
  | Front => match a_side with Behind => add_crossing_d k pos a b cur | _ => Done cur end
  | On => match a_side with Behind => poly_add_d (set_on k b) cur | _ => Done cur end
  | Behind =>
      match a_side with
      | Front => then_ (add_crossing_d k pos a b cur) (poly_add_d b)
      | On => then_ (poly_add_d (set_on k a) cur) (poly_add_d b)
      | Behind => poly_add_d b cur
      end
  end.
(** The loop over all vertices, clipper.cpp:109-173. *)
Fixpoint clip_loop_d (k : nat) (pos : R) (a : cvert) (l cur : list cvert) : outcome (list cvert) :=
  match l with
  | [] => Done cur
  | b :: l => then_ (clip_edge_d k pos a b cur) (clip_loop_d k pos b l)
  end.
(** ClipPolygonByPlane, clipper.cpp:92-174. *)
Definition clip_polygon_d (k : nat) (pos : R) (prev : list cvert) : outcome (list cvert) :=
  match prev with
  | [] => Done []
  | v :: _ => clip_loop_d k pos (last prev v) prev []
  end.
(** The two planes of one direction, clipper.cpp:72-85. *)
Definition clip_direction_d (t : tri pt) (lo hi : pt) (dim : nat) (cur : list cvert) : outcome (list cvert) :=
  let a := axis_of (2 * dim) in
  then_
    (if Rlt_dec (at_ a lo) (tri_max t a) then clip_polygon_d (2 * dim) (at_ a lo) cur else Done cur)
    (fun cur => if Rlt_dec (tri_min t a) (at_ a hi) then clip_polygon_d (2 * dim + 1) (at_ a hi) cur else Done cur).
(** The triangle is aligned with a plane of the box, clipper.cpp:37-50. *)
Definition aligned_d (t : tri pt) (lo hi : pt) (k : nat) : bool :=
  let on p := match classify_d k (plane_pos lo hi k) plane_tol_d p with On => true | _ => false end in
  on (P1 t) && on (P2 t) && on (P3 t).
(** ClipTriangle, clipper.cpp:25-90; Done None: nullptr. *)
Definition clip_triangle_d (t : tri pt) (n lo hi : pt) : outcome (option polygon) :=
  if existsb (aligned_d t lo hi) (seq 0 6) then Done None
  else
    let start := [CV (P1 t) no_planes; CV (P2 t) no_planes; CV (P3 t) no_planes] in
    then_ (clip_direction_d t lo hi 0 start) (fun c => then_ (clip_direction_d t lo hi 1 c) (fun c =>
    then_ (clip_direction_d t lo hi 2 c) (fun vs => Done (Some (Poly vs n))))).
End Clip.
