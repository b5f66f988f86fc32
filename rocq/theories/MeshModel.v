(** Model of the triangle mesh container and its view.
    Source: /repo/queso/containers/triangle_mesh.hpp, triangle_mesh_view.hpp, triangle_proxies.hpp and
    /repo/queso/utilities/mesh_utilities.cpp (Append).
    Simplifications: the type of points is a parameter; size_t indices are natural numbers (a mesh
    with 2^64 vertices cannot exist, so index sums do not wrap); memory reservation has no effect and
    is left out; an access past the end of a vector is undefined behaviour and modelled by None.
    The spans of a view are modelled as reading the mesh at the time of the call. *)
From Coq Require Import Arith List Bool.
Import ListNotations.

(** Vector3i with vertex indices, triangle_mesh.hpp:71. *)
Definition itri := (nat * nat * nat)%type.
(** TriangleMesh, triangle_mesh.hpp:219-221. *)
Record mesh (V : Type) := Mesh { m_vertices : list V; m_triangles : list itri; m_normals : list V }.
Arguments Mesh {V} m_vertices m_triangles m_normals.
Arguments m_vertices {V} m. Arguments m_triangles {V} m. Arguments m_normals {V} m.
(** TriangleProxy<WithoutNormals>, triangle_proxies.hpp:34-40. *)
Record tri (V : Type) := Tri { P1 : V; P2 : V; P3 : V }.
Arguments Tri {V} P1 P2 P3. Arguments P1 {V} t. Arguments P2 {V} t. Arguments P3 {V} t.

Section Mesh.
Context {V : Type}.

(** Default construction of a TriangleMesh. *)
Definition empty_mesh : mesh V := Mesh [] [] [].
(** AddVertex, triangle_mesh.hpp:61-66: the mesh and the index of the new vertex. *)
Definition add_vertex (m : mesh V) (v : V) : mesh V * nat :=
  (Mesh (m_vertices m ++ [v]) (m_triangles m) (m_normals m), length (m_vertices m)).
(** AddTriangle, triangle_mesh.hpp:71-75. *)
Definition add_triangle (m : mesh V) (t : itri) (n : V) : mesh V :=
  Mesh (m_vertices m) (m_triangles m ++ [t]) (m_normals m ++ [n]).
(** Clear, triangle_mesh.hpp:78-83. *)
Definition clear (m : mesh V) : mesh V := Mesh [] [] [].

(** Assignment to the element [i] of a vector; past the end it is undefined. *)
Fixpoint set_nth {A} (i : nat) (a : A) (l : list A) : option (list A) :=
  match l, i with
  | [], _ => None
  | _ :: l, 0 => Some (a :: l)
  | x :: l, S i => option_map (cons x) (set_nth i a l)
  end.
(** back() of a vector; undefined for an empty one. *)
Definition back {A} (l : list A) : option A := nth_error l (length l - 1).
(** v[tid] = v.back(); v.pop_back(), as used in RemoveTriangle. *)
Definition swap_pop {A} (i : nat) (l : list A) : option (list A) :=
  match back l with
  | None => None
  | Some x => option_map (fun l' => removelast l') (set_nth i x l)
  end.
(** RemoveTriangle, triangle_mesh.hpp:88-95. *)
Definition remove_triangle (m : mesh V) (tid : nat) : option (mesh V) :=
  match swap_pop tid (m_triangles m), swap_pop tid (m_normals m) with
  | Some ts, Some ns => Some (Mesh (m_vertices m) ts ns)
  | _, _ => None
  end.

(** NumOfTriangles, NumOfVertices, triangle_mesh.hpp:99-105. *)
Definition num_triangles (m : mesh V) : nat := length (m_triangles m).
Definition num_vertices (m : mesh V) : nat := length (m_vertices m).

(** The corners of an index triple, triangle_mesh.hpp:119 and 166. *)
Definition corners (vs : list V) (t : itri) : option (tri V) :=
  let '(i, j, k) := t in
  match nth_error vs i, nth_error vs j, nth_error vs k with
  | Some a, Some b, Some c => Some (Tri a b c)
  | _, _, _ => None
  end.
(** Triangle<WithoutNormals>, triangle_mesh.hpp:113-123. *)
Definition triangle (m : mesh V) (tid : nat) : option (tri V) :=
  match nth_error (m_triangles m) tid with
  | None => None
  | Some t => corners (m_vertices m) t
  end.
(** Triangle<WithNormals>, triangle_mesh.hpp:113-123. *)
Definition triangle_n (m : mesh V) (tid : nat) : option (tri V * V) :=
  match triangle m tid, nth_error (m_normals m) tid with
  | Some t, Some n => Some (t, n)
  | _, _ => None
  end.

(** Visiting a list of indices in order; undefined if one of the accesses is. *)
Fixpoint visit_list {A} (get : nat -> option A) (l : list nat) : option (list A) :=
  match l with
  | [] => Some []
  | i :: l => match get i with None => None | Some a => option_map (cons a) (visit_list get l) end
  end.
(** TriangleMeshView::VisitEachTriangle<WithoutNormals / WithNormals> over all triangles,
    triangle_mesh_view.hpp:187-226: the triangles that the callback receives, in order. *)
Definition visit (m : mesh V) : option (list (tri V)) := visit_list (triangle m) (seq 0 (num_triangles m)).
Definition visit_n (m : mesh V) : option (list (tri V * V)) := visit_list (triangle_n m) (seq 0 (num_triangles m)).

(** Check, triangle_mesh.hpp:200-211; false: an exception is thrown. *)
Definition check (m : mesh V) : bool :=
  (length (m_triangles m) =? length (m_normals m)) &&
  forallb (fun t : itri => let '(i, j, k) := t in
    (i <? length (m_vertices m)) && (j <? length (m_vertices m)) && (k <? length (m_vertices m))) (m_triangles m).

(** Append, utilities/mesh_utilities.cpp:98-119: the vertices, then the triangles with their normals.
    Simplification: the two meshes are different objects. *)
Fixpoint append_triangles (off : nat) (src : mesh V) (ids : list nat) (m : mesh V) : option (mesh V) :=
  match ids with
  | [] => Some m
  | tid :: ids =>
      match nth_error (m_triangles src) tid, nth_error (m_normals src) tid with
      | Some (i, j, k), Some n => append_triangles off src ids (add_triangle m (i + off, j + off, k + off) n)
      | _, _ => None
      end
  end.
Definition append (m src : mesh V) : option (mesh V) :=
  let m1 := fold_left (fun a v => fst (add_vertex a v)) (m_vertices src) m in
  append_triangles (num_vertices m) src (seq 0 (num_triangles src)) m1.

End Mesh.
