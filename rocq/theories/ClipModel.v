(** Model of the clipping of triangles by boxes and of the triangulation of the clipped polygons.
    Source: /repo/queso/embedding/clipper.h, clipper.cpp, polygon.h, polygon.cpp and
    /repo/queso/containers/clipped_triangle_mesh.hpp.
    Simplifications: double is R; an exception is None; std::array<bool,6> is a function on the plane indices (only the
    indices 0 to 5 are used). *)
From Coq Require Import Reals List Arith Bool.
From Verif Require Import Geo MappingModel TrimmedQuadModel MeshModel MeshGeoModel.
Import ListNotations.
Local Open Scope R_scope.

(** Side, clipper.h:42. *)
Inductive side := Front | Behind | On.
(** The axis of a plane, Plane::GetIndexOfNormalDirection, clipper.h:82-84; plane indices: -x, +x, -y, +y, -z, +z. *)
Definition axis_of (k : nat) : axis := match Nat.div2 k with 0%nat => AX | 1%nat => AY | _ => AZ end.
(** The distance in front of the plane, clipper.cpp:181-184; Plane::IsNegativeOriented, clipper.h:87-89. *)
Definition plane_dist (k : nat) (pos : R) (p : pt) : R :=
  if Nat.even k then pos - at_ (axis_of k) p else at_ (axis_of k) p - pos.
(** ClassifyPointToPlane, clipper.cpp:176-194. *)
Definition classify (k : nat) (pos eps : R) (p : pt) : side :=
  let d := plane_dist k pos p in
  if Rlt_dec eps d then Front else if Rlt_dec d (- eps) then Behind else On.
(** The default tolerance 10.0*ZEROTOL, clipper.h:113. *)
Definition plane_tol : R := 10 * zerotol.

(** Assignment to one coordinate, clipper.cpp:216. *)
Definition set_at (a : axis) (x : R) (p : pt) : pt :=
  match a with AX => Pt x (py p) (pz p) | AY => Pt (px p) x (pz p) | AZ => Pt (px p) (py p) x end.
(** FindIntersectionPointOnPlane, clipper.cpp:196-221. *)
Definition find_intersection (a b : pt) (k : nat) (pos : R) : option pt :=
  let i := axis_of k in
  let t := (pos - at_ i a) / (at_ i b - at_ i a) in
  if (if Rle_dec 0 t then if Rle_dec t 1 then true else false else false) then
    let ret := Pt (px a + t * (px b - px a)) (py a + t * (py b - py a)) (pz a + t * (pz b - pz a)) in
    Some (match classify k pos zerotol ret with On => ret | _ => set_at i pos ret end)
  else None.

(** Polygon<SIZE>::VertexType, polygon.h:45: a point and the planes it is on. *)
Record cvert := CV { c_pos : pt; c_on : nat -> bool }.
(** Polygon<SIZE>, polygon.h:109-111. *)
Record polygon := Poly { p_vertices : list cvert; p_normal : pt }.
(** No plane. *)
Definition no_planes : nat -> bool := fun _ => false.
(** SetIndexOnPlane, polygon.h:77-79. *)
Definition set_on (k : nat) (v : cvert) : cvert := CV (c_pos v) (fun j => (j =? k)%nat || c_on v j).
(** The planes of a new vertex between a and b, clipper.cpp:121-124 and 145-148: those before the plane k that both are on. *)
Definition shared_on (k : nat) (a b : cvert) : nat -> bool := fun j => (j <? k)%nat && c_on a j && c_on b j.
(** AddVertex, polygon.cpp:22-45, with SIZE = 9 (clipper.h:40). *)
Definition poly_size : nat := 9.
Definition poly_add (v : cvert) (cur : list cvert) : option (list cvert) :=
  if (poly_size <=? length cur)%nat then None else Some (cur ++ [v]).
(** A new vertex on the plane, clipper.cpp:126-127 and 150-151. *)
Definition add_crossing (k : nat) (pos : R) (a b : cvert) (cur : list cvert) : option (list cvert) :=
  match find_intersection (c_pos a) (c_pos b) k pos with
  | None => None
  | Some p => poly_add (set_on k (CV p (shared_on k a b))) cur
  end.
Definition and_then {A B} (x : option A) (f : A -> option B) : option B := match x with None => None | Some a => f a end.
(** The loop body, clipper.cpp:115-169. *)
Definition clip_edge (k : nat) (pos : R) (a b : cvert) (cur : list cvert) : option (list cvert) :=
  let a_side := classify k pos plane_tol (c_pos a) in
  match classify k pos plane_tol (c_pos b) with
  | Front => match a_side with Behind => add_crossing k pos a b cur | _ => Some cur end
  | On => match a_side with Behind => poly_add (set_on k b) cur | _ => Some cur end
  | Behind =>
      match a_side with
      | Front => and_then (add_crossing k pos a b cur) (poly_add b)
      | On => and_then (poly_add (set_on k a) cur) (poly_add b)
      | Behind => poly_add b cur
      end
  end.
(** The loop over all vertices, clipper.cpp:109-173. *)
Fixpoint clip_loop (k : nat) (pos : R) (a : cvert) (l cur : list cvert) : option (list cvert) :=
  match l with
  | [] => Some cur
  | b :: l => and_then (clip_edge k pos a b cur) (clip_loop k pos b l)
  end.
(** ClipPolygonByPlane, clipper.cpp:92-174. *)
Definition clip_polygon (k : nat) (pos : R) (prev : list cvert) : option (list cvert) :=
  match prev with
  | [] => Some []
  | v :: _ => clip_loop k pos (last prev v) prev []
  end.

(** Minimum and maximum of the triangle in one direction, clipper.cpp:53-62. *)
Definition tri_min (t : tri pt) (a : axis) : R := Rmin (Rmin (at_ a (P1 t)) (at_ a (P2 t))) (at_ a (P3 t)).
Definition tri_max (t : tri pt) (a : axis) : R := Rmax (Rmax (at_ a (P1 t)) (at_ a (P2 t))) (at_ a (P3 t)).
(** The two planes of one direction, clipper.cpp:72-85. *)
Definition clip_direction (t : tri pt) (lo hi : pt) (dim : nat) (cur : list cvert) : option (list cvert) :=
  let a := axis_of (2 * dim) in
  and_then
    (if Rlt_dec (at_ a lo) (tri_max t a) then clip_polygon (2 * dim) (at_ a lo) cur else Some cur)
    (fun cur => if Rlt_dec (tri_min t a) (at_ a hi) then clip_polygon (2 * dim + 1) (at_ a hi) cur else Some cur).
(** Position of a plane of the box, clipper.cpp:39. *)
Definition plane_pos (lo hi : pt) (k : nat) : R := if Nat.even k then at_ (axis_of k) lo else at_ (axis_of k) hi.
(** The triangle is aligned with a plane of the box, clipper.cpp:37-50. *)
Definition aligned (t : tri pt) (lo hi : pt) (k : nat) : bool :=
  let on p := match classify k (plane_pos lo hi k) plane_tol p with On => true | _ => false end in
  on (P1 t) && on (P2 t) && on (P3 t).
(** ClipTriangle, clipper.cpp:25-90; Some None: nullptr. *)
Definition clip_triangle (t : tri pt) (n lo hi : pt) : option (option polygon) :=
  if existsb (aligned t lo hi) (seq 0 6) then Some None
  else
    let start := [CV (P1 t) no_planes; CV (P2 t) no_planes; CV (P3 t) no_planes] in
    option_map (fun vs => Some (Poly vs n))
      (and_then (clip_direction t lo hi 0 start) (fun c => and_then (clip_direction t lo hi 1 c) (clip_direction t lo hi 2))).

(** Edge, clipped_triangle_mesh.hpp:60-65, with its plane. *)
Record edge := Edge { e_plane : nat; e_v1 : nat; e_v2 : nat; e_normal : nat }.
(** ClippedTriangleMesh, clipped_triangle_mesh.hpp:212-213. Simplification: one list for the edges of all planes. *)
Record cmesh := CMesh { cm_mesh : mesh pt; cm_edges : list edge }.
Definition empty_cmesh : cmesh := CMesh empty_mesh [].
(** AddVertex, AddTriangle and AddEdgeOnPlane, clipped_triangle_mesh.hpp:120-127 and 180-184. *)
Definition cm_add_vertex (m : cmesh) (v : pt) : cmesh := CMesh (fst (add_vertex (cm_mesh m) v)) (cm_edges m).
Definition cm_add_triangle (m : cmesh) (t : itri) (n : pt) : cmesh := CMesh (add_triangle (cm_mesh m) t n) (cm_edges m).
Definition cm_add_edge (m : cmesh) (e : edge) : cmesh := CMesh (cm_mesh m) (cm_edges m ++ [e]).
(** Edges, clipped_triangle_mesh.hpp:189-199: end points and normal of the edges on one plane; None: undefined. *)
Definition edges_on (m : cmesh) (k : nat) : list (option (pt * pt * pt)) :=
  map (fun e => match nth_error (m_vertices (cm_mesh m)) (e_v1 e), nth_error (m_vertices (cm_mesh m)) (e_v2 e),
                      nth_error (m_normals (cm_mesh m)) (e_normal e) with
                | Some a, Some b, Some n => Some (a, b, n)
                | _, _, _ => None
                end) (filter (fun e => (e_plane e =? k)%nat) (cm_edges m)).

(** The edges of a polygon with three vertices, polygon.cpp:96-113; None: exception. *)
Definition tri_edges (va vb vc : cvert) (nv nt : nat) (m : option cmesh) (k : nat) : option cmesh :=
  and_then m (fun m =>
    if c_on va k && c_on vb k && c_on vc k then None
    else Some (if c_on va k && c_on vb k then cm_add_edge m (Edge k nv (nv + 1) nt)
               else if c_on vb k && c_on vc k then cm_add_edge m (Edge k (nv + 1) (nv + 2) nt)
               else if c_on vc k && c_on va k then cm_add_edge m (Edge k (nv + 2) nv nt)
               else m)).
(** Three vertices and a triangle, polygon.cpp:88-92, 127-131 and 145-149. *)
Definition add_three (a b c n : pt) (m : cmesh) : cmesh :=
  let nv := num_vertices (cm_mesh m) in
  cm_add_triangle (cm_add_vertex (cm_add_vertex (cm_add_vertex m a) b) c) (nv, nv + 1, nv + 2)%nat n.
(** One triangle of the fan with its edges, polygon.cpp:127-142 and 145-158.
    Simplification: vertex_count and triangle_count are the sizes of the mesh, as they start with these sizes and three
    vertices and one triangle are added in each step. *)
Definition add_fan (centroid n : pt) (a b : cvert) (m : cmesh) : cmesh :=
  let nv := num_vertices (cm_mesh m) in
  let nt := num_triangles (cm_mesh m) in
  fold_left (fun m k => if c_on a k && c_on b k then cm_add_edge m (Edge k nv (nv + 1) nt) else m) (seq 0 6)
    (add_three (c_pos a) (c_pos b) centroid n m).
(** The loop over consecutive vertices, polygon.cpp:126-143. *)
Fixpoint add_fans (centroid n : pt) (a : cvert) (l : list cvert) (m : cmesh) : cmesh :=
  match l with
  | [] => m
  | b :: l => add_fans centroid n b l (add_fan centroid n a b m)
  end.
(** The mean of the vertices, polygon.cpp:118-122. *)
Definition centroid (l : list cvert) : pt :=
  vscale (1 / INR (length l)) (fold_left (fun acc v => vadd acc (c_pos v)) l (Pt 0 0 0)).
(** AddToTriangleMesh, polygon.cpp:79-161. *)
Definition add_to_mesh (p : polygon) (m : cmesh) : option cmesh :=
  match p_vertices p with
  | [a; b; c] => fold_left (tri_edges a b c (num_vertices (cm_mesh m)) (num_triangles (cm_mesh m))) (seq 0 6)
                   (Some (add_three (c_pos a) (c_pos b) (c_pos c) (p_normal p) m))
  | a :: b :: c :: l =>
      let vs := a :: b :: c :: l in
      let z := centroid vs in
      Some (add_fan z (p_normal p) (last vs a) a (add_fans z (p_normal p) a (b :: c :: l) m))
  | _ => Some m
  end.

(** The visit of one triangle in ClipTriangleMesh, brep_operator.cpp:231-236. *)
Definition clip_one (lo hi : pt) (q : tri pt * pt) (m : cmesh) : option cmesh :=
  match clip_triangle (fst q) (snd q) lo hi with
  | None => None
  | Some None => Some m
  | Some (Some p) => add_to_mesh p m
  end.
(** ClipTriangleMesh and ClipTriangleMeshUnique, brep_operator.cpp:223-241 and 244-265, from the list [ids] of the
    triangles that the search returned; the latter is called here with the shifted bounds. None: an index out of range or
    an exception. *)
Definition clip_mesh (src : mesh pt) (ids : list nat) (lo hi : pt) : option cmesh :=
  and_then (visit_list (triangle_n src) ids) (fun l =>
  and_then (fold_left (fun m q => and_then m (clip_one lo hi q)) l (Some empty_cmesh)) (fun m =>
    if (0 <? num_triangles (cm_mesh m))%nat then (if check (cm_mesh m) then Some m else None) else Some m)).
