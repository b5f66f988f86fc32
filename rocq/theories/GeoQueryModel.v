(** Model of the geometric queries on a triangle mesh: box/triangle, ray/box and ray/triangle tests, the queries that combine
    them with the search tree, and the inside test.
    Source: /repo/queso/embedding/aabb_primitive.cpp, ray_aabb_primitive.h, ray_aabb_primitive.cpp, geometry_query.h,
    geometry_query.cpp and brep_operator.cpp.
    Simplifications: double is R, except that the reciprocals of the direction and what is computed from them are extended
    by infinities and NaN (so that directions with zero components are covered); random numbers are a given sequence. *)
From Coq Require Import Reals List Arith Bool ZArith.
From Verif Require Import Geo MappingModel TrimmedQuadModel MeshModel MeshGeoModel StlModel SearchModel.
Import ListNotations.
Local Open Scope R_scope.

(** a < b on double. *)
Definition rltb (a b : R) : bool := if Rlt_dec a b then true else false.
(** The arithmetic of the search tree. *)
Definition RA : arith := Arith R rltb Rplus Rminus Rmult 0 1 2.
Definition rbox := aabb RA.
Definition vec_of (p : pt) : vec R := Vec (px p) (py p) (pz p).
(** The bounds of AABB_primitive, aabb_primitive.h:45-50. *)
Definition rbox_of (l u : pt) : rbox := AABB RA (vec_of l) (vec_of u).

(** Box and triangle. *)
(** AABB_primitive::check_axis, aabb_primitive.cpp:136-165. *)
Definition check_axis (v0 v1 v2 extent a : pt) : bool :=
  let pv0 := px v0 * px a + py v0 * py a + pz v0 * pz a in
  let pv1 := px v1 * px a + py v1 * py a + pz v1 * pz a in
  let pv2 := px v2 * px a + py v2 * py a + pz v2 * pz a in
  let pu0 := 1 * px a + 0 * py a + 0 * pz a in
  let pu1 := 0 * px a + 1 * py a + 0 * pz a in
  let pu2 := 0 * px a + 0 * py a + 1 * pz a in
  let r := px extent * Rabs pu0 + py extent * Rabs pu1 + pz extent * Rabs pu2 in
  negb (rltb r (Rmax (- Rmax (Rmax pv0 pv1) pv2) (Rmin (Rmin pv0 pv1) pv2))).
(** The unit vectors, aabb_primitive.cpp:49-51. *)
Definition unit_of (i : axis) : pt := match i with AX => Pt 1 0 0 | AY => Pt 0 1 0 | AZ => Pt 0 0 1 end.
(** AABB_primitive::intersect(v0, v1, v2, tolerance), aabb_primitive.cpp:29-133, with the 13 axes in the order of the code. *)
Definition sat_axes (v0 v1 v2 : pt) : list pt :=
  let f0 := vsub v1 v0 in
  let f1 := vsub v2 v1 in
  let f2 := vsub v0 v2 in
  [cross (unit_of AX) f0; cross (unit_of AX) f1; cross (unit_of AX) f2;
   cross (unit_of AY) f0; cross (unit_of AY) f1; cross (unit_of AY) f2;
   cross (unit_of AZ) f0; cross (unit_of AZ) f1; cross (unit_of AZ) f2;
   unit_of AX; unit_of AY; unit_of AZ; cross f0 f1].
Definition box_triangle (lo up v0 v1 v2 : pt) (tol : R) : bool :=
  let extent := Pt ((px up - px lo) / 2 - tol) ((py up - py lo) / 2 - tol) ((pz up - pz lo) / 2 - tol) in
  let centre := Pt (1/2 * (px lo + px up)) (1/2 * (py lo + py up)) (1/2 * (pz lo + pz up)) in
  forallb (check_axis (vsub v0 centre) (vsub v1 centre) (vsub v2 centre) extent) (sat_axes v0 v1 v2).

(** Ray and box. *)
(** A double that may be infinite or NaN. *)
Inductive ext := Fin (x : R) | PInf | MInf | NaN.
(** a < b; false if one of them is NaN. *)
Definition eltb (a b : ext) : bool :=
  match a, b with
  | NaN, _ | _, NaN => false
  | Fin x, Fin y => rltb x y
  | MInf, MInf | PInf, PInf => false
  | MInf, _ | _, PInf => true
  | _, _ => false
  end.
(** x * e. *)
Definition emul (x : R) (e : ext) : ext :=
  match e with
  | Fin y => Fin (x * y)
  | NaN => NaN
  | PInf => if Rlt_dec 0 x then PInf else if Rlt_dec x 0 then MInf else NaN
  | MInf => if Rlt_dec 0 x then MInf else if Rlt_dec x 0 then PInf else NaN
  end.
(** 1.0 / d; the zero is the positive one. *)
Definition einv (d : R) : ext := if Req_EM_T d 0 then PInf else Fin (/ d).
(** std::max, std::min. *)
Definition emax (a b : ext) : ext := if eltb a b then b else a.
Definition emin (a b : ext) : ext := if eltb b a then b else a.

(** Ray_AABB_primitive, ray_aabb_primitive.h:44-58. *)
Record ray := Ray { r_origin : pt; r_dir : pt }.
Definition positive_dir (r : ray) : bool :=
  negb (negb (rltb 0 (px (r_dir r))) || negb (rltb 0 (py (r_dir r))) || negb (rltb 0 (pz (r_dir r)))).
(** The common body of intersect_positive_ray (no sign is set) and intersect_general, ray_aabb_primitive.cpp:45-107 and
    109-172; [s0 s1 s2] are mSign. *)
Definition slab_test (s0 s1 s2 : bool) (r : ray) (b : rbox) : bool :=
  let pick (s : bool) (l u : R) := if s then u else l in
  let lower_0 := pick s0 (vx (lo RA b)) (vx (up RA b)) in
  let upper_0 := pick (negb s0) (vx (lo RA b)) (vx (up RA b)) in
  let lower_1 := pick s1 (vy (lo RA b)) (vy (up RA b)) in
  let upper_1 := pick (negb s1) (vy (lo RA b)) (vy (up RA b)) in
  let lower_2 := pick s2 (vz (lo RA b)) (vz (up RA b)) in
  let upper_2 := pick (negb s2) (vz (lo RA b)) (vz (up RA b)) in
  let o := r_origin r in
  let i0 := einv (px (r_dir r)) in
  let i1 := einv (py (r_dir r)) in
  let i2 := einv (pz (r_dir r)) in
  if within_bounds RA b (vec_of o) then true
  else
    let tmin := emul (lower_0 - px o) i0 in
    let tymax := emul (upper_1 - py o) i1 in
    if eltb tymax tmin then false
    else
      let tmax := emul (upper_0 - px o) i0 in
      let tymin := emul (lower_1 - py o) i1 in
      if eltb tmax tymin then false
      else
        let tmin := emax tmin tymin in
        let tmax := emin tmax tymax in
        let tzmin := emul (lower_2 - pz o) i2 in
        if eltb tmax tzmin then false
        else
          let tzmax := emul (upper_2 - pz o) i2 in
          if eltb tzmax tmin then false
          else
            let tmin := if eltb tmin tzmin then tzmin else tmin in
            if eltb tmin (Fin 0) then false else true.
(** mSign, ray_aabb_primitive.h:54-56. *)
Definition neg_sign (d : R) : bool := eltb (einv d) (Fin 0).
(** Ray_AABB_primitive::intersect(aabb), ray_aabb_primitive.cpp:33-43. *)
Definition ray_box (r : ray) (b : rbox) : bool :=
  if positive_dir r then slab_test false false false r b
  else slab_test (neg_sign (px (r_dir r))) (neg_sign (py (r_dir r))) (neg_sign (pz (r_dir r))) r b.

(** Ray and triangle. *)
(** The outcome of Ray_AABB_primitive::intersect(v0, v1, v2, ...): false, true with the flag Parallel (then t, u and v are not
    set), or true with t, u, v and BackFacing. *)
Inductive crossing := Miss | Parallel | Hit (t u v : R) (back : bool).
(** Ray_AABB_primitive::intersect(v0, v1, v2, ...), ray_aabb_primitive.cpp:174-230. *)
Definition ray_triangle (r : ray) (q : tri pt) : crossing :=
  let v0v1 := vsub (P2 q) (P1 q) in
  let v0v2 := vsub (P3 q) (P1 q) in
  let pvec := cross (r_dir r) v0v2 in
  let det := dot v0v1 pvec in
  if rltb (Rabs det) (10 * zerotol) then Parallel
  else
    let back := rltb det zerotol in
    let inv := 1 / det in
    let tvec := vsub (r_origin r) (P1 q) in
    let u := dot tvec pvec * inv in
    if rltb u (- zerotol) || rltb (1 + zerotol) u then Miss
    else
      let qvec := cross tvec v0v1 in
      let v := dot (r_dir r) qvec * inv in
      if rltb v (- zerotol) || rltb (1 + zerotol) (u + v) then Miss
      else
        let t := dot v0v2 qvec * inv in
        if rltb t (- zerotol) then Miss else Hit t u v back.
(** Ray_AABB_primitive::is_parallel, ray_aabb_primitive.cpp:232-248. *)
Definition is_parallel (r : ray) (q : tri pt) (tol : R) : bool :=
  rltb (Rabs (dot (vsub (P2 q) (P1 q)) (cross (r_dir r) (vsub (P3 q) (P1 q))))) tol.

(** GeometryQuery, geometry_query.h:44-52 and 102-104: the triangles, the search tree and its bounds. *)
Record gquery := GQ { g_tris : list (tri pt); g_tree : tree RA; g_bounds : rbox; g_closed : bool }.
Definition corners (q : tri pt) : vec R * vec R * vec R := (vec_of (P1 q), vec_of (P2 q), vec_of (P3 q)).
(** MAXD and LOWESTD, core_definitions.hpp:56 and 60. *)
Definition maxd : R := (2 - / 2 ^ 52) * 2 ^ 1023.
Definition no_bounds : rbox := AABB RA (Vec maxd maxd maxd) (Vec (- maxd) (- maxd) (- maxd)).
Definition make_query (junk : nat -> node RA) (tris : list (tri pt)) (closed : bool) : option gquery :=
  match build RA junk no_bounds (map corners tris) with
  | None => None
  | Some (t, b) => Some (GQ tris t b closed)
  end.

(** The visited triangles, triangle_mesh_view.hpp: VisitEachTriangle over a list of ids; None is an access out of range. *)
Fixpoint visit_ids (tris : list (tri pt)) (ids : list nat) : option (list (nat * tri pt)) :=
  match ids with
  | [] => Some []
  | i :: ids' =>
      match nth_error tris i, visit_ids tris ids' with
      | Some q, Some l => Some ((i, q) :: l)
      | _, _ => None
      end
  end.
(** The triangles found by the tree; None is undefined behaviour, an exception or a loop that does not end. *)
Definition candidates (g : gquery) (hit : rbox -> bool) : option (list (nat * tri pt)) :=
  match query RA hit (g_tree g) with Results l => visit_ids (g_tris g) l | _ => None end.

(** RelativeSnapTolerance, core_definitions.hpp:70-75. *)
Definition relative_tol (l u : pt) (tol : R) : R :=
  Rmax (Rmax (px u - px l) (Rmax (py u - py l) (pz u - pz l)) * tol) tol.
(** AABB_primitive::AABB_primitive, aabb_primitive.h:45-50 with AABB_base.cc:49-70: throws for exchanged bounds. *)
Definition valid_primitive (l u : pt) : bool := negb (bad_bounds RA (rbox_of l u)).
(** GeometryQuery::DoIntersect, geometry_query.cpp:35-50. *)
Definition do_intersect (g : gquery) (l u : pt) (tol : R) : option bool :=
  if valid_primitive l u then
    match candidates g (overlap RA (rbox_of l u)) with
    | None => None
    | Some c => Some (existsb (fun e => box_triangle l u (P1 (snd e)) (P2 (snd e)) (P3 (snd e)) (relative_tol l u tol)) c)
    end
  else None.
(** GeometryQuery::GetIntersectedTriangleIds, geometry_query.cpp:52-71. *)
Definition intersected_ids (g : gquery) (l u : pt) (tol : R) : option (list nat) :=
  if valid_primitive l u then
    match candidates g (overlap RA (rbox_of l u)) with
    | None => None
    | Some c => Some (map fst (List.filter (fun e => box_triangle l u (P1 (snd e)) (P2 (snd e)) (P3 (snd e)) tol) c))
    end
  else None.

(** The result of a ray cast: is_inside and success, or undefined behaviour (t, u and v are read although they are not set,
    geometry_query.cpp:123-132, if the triangle is parallel to the ray). *)
Inductive cast := Cast (inside success : bool) | CastUndefined.
(** On the boundary of the triangle, geometry_query.cpp:90 and 129. *)
Definition on_edge (u v : R) : bool := rltb u (0 + zerotol) || rltb v (0 + zerotol) || rltb (1 - zerotol) (u + v).
(** The loop of IsInsideClosed, geometry_query.cpp:116-148. *)
Fixpoint closed_loop (r : ray) (l : list (nat * tri pt)) (count : nat) : cast :=
  match l with
  | [] => Cast (Nat.odd count) true
  | (_, q) :: l' =>
      if rltb (100 * zerotol) (tri_area q) then
        match ray_triangle r q with
        | Miss => closed_loop r l' count
        | Parallel => CastUndefined
        | Hit t u v back =>
            if rltb t zerotol then Cast false true
            else if on_edge u v then Cast false false
            else closed_loop r l' (S count)
        end
      else closed_loop r l' count
  end.
(** The loop of IsInsideOpen, geometry_query.cpp:79-107. *)
Fixpoint open_loop (r : ray) (l : list (nat * tri pt)) (dist : R) (inside : bool) : cast :=
  match l with
  | [] => Cast inside true
  | (_, q) :: l' =>
      match ray_triangle r q with
      | Miss | Parallel => open_loop r l' dist inside
      | Hit t u v back =>
          if rltb t zerotol then Cast false true
          else if on_edge u v then Cast false false
          else if rltb t dist then open_loop r l' t back else open_loop r l' dist inside
      end
  end.
(** GeometryQuery::IsInside, geometry_query.cpp:27-33. *)
Definition cast_ray (g : gquery) (r : ray) : cast :=
  match candidates g (ray_box r) with
  | None => CastUndefined
  | Some c => if g_closed g then closed_loop r c 0 else open_loop r c maxd false
  end.

(** Counting the casts, brep_operator.cpp:42-67 and 88-124. *)
Definition vote (inside : bool) (n : Z) : Z := (if inside then n + 1 else n - 1)%Z.
(** The random direction, normalised, brep_operator.cpp:47-51. *)
Definition unit_dir (d : pt) : pt := Pt (px d / norm d) (py d / norm d) (pz d / norm d).
(** The loop of BRepOperator::IsInside, brep_operator.cpp:43-67: [left] iterations until the limit; [dirs] are the random
    vectors that are drawn from now on. *)
Fixpoint inside_loop (g : gquery) (p : pt) (left : nat) (dirs : nat -> pt) (success : nat) (votes : Z) : option bool :=
  if (success <? 5)%nat then
    match left with
    | O => Some false
    | S left' =>
        match cast_ray g (Ray p (unit_dir (dirs O))) with
        | CastUndefined => None
        | Cast inside true => inside_loop g p left' (fun k => dirs (S k)) (S success) (vote inside votes)
        | Cast _ false => inside_loop g p left' (fun k => dirs (S k)) success votes
        end
    end
  else Some (0 <? votes)%Z.
(** BRepOperator::IsInside, brep_operator.cpp:32-70. *)
Definition is_inside (g : gquery) (dirs : nat -> pt) (p : pt) : option bool :=
  if within_bounds RA (g_bounds g) (vec_of p) then inside_loop g p 100 dirs 0 0%Z else Some false.

(** A cast towards the centre of a triangle, brep_operator.cpp:94-112 and trimmed_domain.cpp:52-68, for a mesh that is not
    closed.  If the point is the centre, the direction is 0/0: no comparison with it holds, so that all boxes and triangles are
    hit (ray_aabb_primitive.cpp:139-171 and 192-229), but none is nearer than another (geometry_query.cpp:85-97). *)
Definition centred (p : pt) (q : tri pt) : bool := if Req_EM_T (norm (vsub (tri_center q) p)) 0 then true else false.
Definition aimed_cast (g : gquery) (p : pt) (q : tri pt) : cast :=
  if centred p q then match candidates g (fun _ => true) with Some _ => Cast false true | None => CastUndefined end
  else cast_ray g (Ray p (unit_dir (vsub (tri_center q) p))).
(** The triangle is used as a target, brep_operator.cpp:110-111 and trimmed_domain.cpp:65-66. *)
Definition is_target (p : pt) (tol : R) (q : tri pt) : bool :=
  (centred p q || negb (is_parallel (Ray p (unit_dir (vsub (tri_center q) p))) q (100 * tol))) && rltb (100 * zerotol) (tri_area q).
(** The loop of OnBoundedSideOfClippedSection, brep_operator.cpp:88-124, over the remaining triangles of the clipped mesh;
    [g] is the query of the clipped mesh. *)
Fixpoint section_loop (g : gquery) (p : pt) (tol : R) (tris : list (tri pt)) (success : nat) (votes : Z) : option bool :=
  match tris with
  | [] => Some (0 <? votes)%Z
  | q :: tris' =>
      if (success <? 10)%nat then
        if is_target p tol q then
          match aimed_cast g p q with
          | CastUndefined => None
          | Cast inside true => section_loop g p tol tris' (S success) (vote inside votes)
          | Cast _ false => section_loop g p tol tris' success votes
          end
        else section_loop g p tol tris' success votes
      else Some (0 <? votes)%Z
  end.
(** OnBoundedSideOfClippedSection, brep_operator.cpp:77-125, given the triangles of the clipped mesh; SNAPTOL is 1e-12. *)
Definition on_bounded_side (junk : nat -> node RA) (clipped : list (tri pt)) (l u p : pt) : option bool :=
  match make_query junk clipped false with
  | None => None
  | Some g =>
      match clipped with
      | [] => Some false
      | _ => section_loop g p (relative_tol l u (/ 10 ^ 12)) clipped 0 0%Z
      end
  end.
(** GetIntersectionState, brep_operator.cpp:127-149; IntersectionState::inside, outside, trimmed. *)
Inductive location := LInside | LOutside | LTrimmed.
Definition intersection_state (g : gquery) (dirs : nat -> pt) (l u : pt) (tol : R) : option location :=
  match do_intersect g l u tol with
  | None => None
  | Some true => Some LTrimmed
  | Some false =>
      match is_inside g dirs (vscale (1/2) (vadd u l)) with
      | None => None
      | Some true => Some LInside
      | Some false => Some LOutside
      end
  end.
