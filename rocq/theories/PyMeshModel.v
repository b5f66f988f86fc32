(** Model of triangle meshes in Python: programs that build a TriangleMesh, iterate over it, keep the triangles that the iterators give and
    delete objects, in any order.
    Source: /repo/queso/python/bindings/add_containers_to_python.cpp:61-121 and 178-204; /repo/queso/containers/triangle_mesh.hpp;
    /repo/queso/containers/triangle_proxies.hpp (a triangle is a set of spans, i.e. of addresses in the vectors of the mesh).
    Simplifications: one mesh (meshes share nothing); the type of points is a parameter, and so is the normal of three points;
    allocations succeed; the arguments have the right types; several names of one Python object count as one. *)
From Coq Require Import Arith List Bool.
From Verif Require Import MeshModel.
Import ListNotations.

(** std::vector: its items, its capacity, and the number of its current block of memory. *)
Record vec (A : Type) := Vec { v_items : list A; v_cap : nat; v_block : nat }.
Arguments Vec {A} v_items v_cap v_block. Arguments v_items {A} v. Arguments v_cap {A} v. Arguments v_block {A} v.

Section PyMesh.
Variable V : Type.
Variable normal : tri V -> V.                (* TriangleUtilities::Normal *)
Variables grow room : nat -> nat.            (* how much more memory than needed push_back and reserve take *)

(** push_back and reserve move the items to a new block if the capacity does not suffice. *)
Definition push {A} (v : vec A) (x : A) : vec A :=
  let n := S (length (v_items v)) in
  if n <=? v_cap v then Vec (v_items v ++ [x]) (v_cap v) (v_block v) else Vec (v_items v ++ [x]) (n + grow n) (S (v_block v)).
Definition reserve {A} (v : vec A) (n : nat) : vec A :=
  if n <=? v_cap v then v else Vec (v_items v) (n + room n) (S (v_block v)).

(** PythonMeshIterator, add_containers_to_python.cpp:67-71: over the triangles or over the vertices, with its index. *)
Record cursor := Cursor { c_triangles : bool; c_index : nat }.
(** A Triangle in Python: TriangleProxy<WithNormals>, triangle_proxies.hpp:42-49: places in the blocks of vertices and normals. *)
Record proxy := Proxy { x_corners : itri; x_block : nat; x_normal : nat; x_nblock : nat }.
Record pm := Pm {
  pm_named : bool;                           (* the program has a name for the mesh *)
  pm_vertices : vec V; pm_triangles : vec itri; pm_normals : vec V;
  pm_iterators : list (option cursor);       (* the iterators made so far; None: deleted *)
  pm_taken : list proxy }.                   (* the triangles that were taken from the iterators *)
(** TriangleMesh(). *)
Definition new_mesh : pm := Pm true (Vec [] 0 0) (Vec [] 0 0) (Vec [] 0 0) [] [].
Definition contents (s : pm) : mesh V := Mesh (v_items (pm_vertices s)) (v_items (pm_triangles s)) (v_items (pm_normals s)).
(** The mesh lives as long as its name or an iterator (keep_alive<0, 1>, :185 and :188); triangles keep nothing alive. *)
Definition in_use (c : option cursor) : bool := match c with Some _ => true | None => false end.
Definition mesh_alive (s : pm) : bool := pm_named s || existsb in_use (pm_iterators s).

Inductive statement :=
| AddVertex (v : V) | AddTriangle (t : itri) | Reserve (n : nat) | CountVertices | CountTriangles
| Vertices | Triangles                       (* i = m.Vertices(), i = m.Triangles() *)
| Next (k : nat)                             (* next(i) of the iterator number k *)
| ReadPoints (j : nat) | ReadNormal (j : nat)(* p1, p2, p3, Area(), ... and normal of the triangle number j *)
| DropMesh | DropIterator (k : nat).         (* del *)
Inductive outcome :=
| Nothing | Number (n : nat) | Handle (k : nat) | Point (v : V) | Taken (j : nat) | Corners (t : tri V) | Normal (v : V)
| Raises                                     (* an exception, e.g. NameError *)
| Exhausted                                  (* StopIteration *)
| Undefined.                                 (* a read outside the vectors or of released memory *)

Fixpoint put {A} (l : list A) (k : nat) (a : A) : list A :=
  match l, k with [], _ => [] | _ :: l, 0 => a :: l | x :: l, S k => x :: put l k a end.
(** __next__, :81-86 and :91-96. *)
Definition next (s : pm) (k : nat) (c : cursor) : pm * outcome :=
  let 'Pm named vs ts ns its taken := s in
  let its' := put its k (Some (Cursor (c_triangles c) (S (c_index c)))) in
  if c_triangles c then
    if length (v_items ts) <=? c_index c then (s, Exhausted)
    else match nth_error (v_items ts) (c_index c), triangle_n (contents s) (c_index c) with
         | Some t, Some _ => (Pm named vs ts ns its' (taken ++ [Proxy t (v_block vs) (c_index c) (v_block ns)]), Taken (length taken))
         | _, _ => (s, Undefined)
         end
  else if length (v_items vs) <=? c_index c then (s, Exhausted)
  else match nth_error (v_items vs) (c_index c) with
       | Some v => (Pm named vs ts ns its' taken, Point v)
       | None => (s, Undefined)
       end.
Definition do_statement (s : pm) (c : statement) : pm * outcome :=
  let 'Pm named vs ts ns its taken := s in
  match c with
  | AddVertex v => if named then (Pm named (push vs v) ts ns its taken, Number (length (v_items vs))) else (s, Raises)   (* :190, triangle_mesh.hpp:61-66 *)
  | AddTriangle t =>                                                                                                (* :192-201, triangle_mesh.hpp:71-75 *)
      if named then match corners (v_items vs) t with
                    | Some p => (Pm named vs (push ts t) (push ns (normal p)) its taken, Nothing)
                    | None => (s, Undefined)
                    end
      else (s, Raises)
  | Reserve n => if named then (Pm named (reserve vs ((n + 1) / 2)) (reserve ts n) (reserve ns n) its taken, Nothing) else (s, Raises) (* triangle_mesh.hpp:51-56 *)
  | CountVertices => (s, if named then Number (length (v_items vs)) else Raises)
  | CountTriangles => (s, if named then Number (length (v_items ts)) else Raises)
  | Vertices => if named then (Pm named vs ts ns (its ++ [Some (Cursor false 0)]) taken, Handle (length its)) else (s, Raises)   (* :183-185 *)
  | Triangles => if named then (Pm named vs ts ns (its ++ [Some (Cursor true 0)]) taken, Handle (length its)) else (s, Raises)    (* :186-188 *)
  | Next k => match nth_error its k with Some (Some c) => next s k c | _ => (s, Raises) end
  | ReadPoints j =>                                                                                                 (* :102-104 *)
      (s, match nth_error taken j with
          | Some x => if mesh_alive s && (x_block x =? v_block vs) then match corners (v_items vs) (x_corners x) with Some t => Corners t | None => Undefined end
                      else Undefined
          | None => Raises
          end)
  | ReadNormal j =>                                                                                                 (* :105 *)
      (s, match nth_error taken j with
          | Some x => if mesh_alive s && (x_nblock x =? v_block ns) then match nth_error (v_items ns) (x_normal x) with Some n => Normal n | None => Undefined end
                      else Undefined
          | None => Raises
          end)
  | DropMesh => (Pm false vs ts ns its taken, Nothing)
  | DropIterator k => (Pm named vs ts ns (put its k None) taken, Nothing)
  end.
(** A program; None: undefined behaviour. *)
Fixpoint execute (l : list statement) (s : pm) : option (pm * list outcome) :=
  match l with
  | [] => Some (s, [])
  | c :: l => match do_statement s c with
              | (_, Undefined) => None
              | (s, r) => match execute l s with Some (s, rs) => Some (s, r :: rs) | None => None end
              end
  end.
End PyMesh.

Arguments Pm {V} pm_named pm_vertices pm_triangles pm_normals pm_iterators pm_taken. Arguments pm_named {V} p. Arguments pm_vertices {V} p. Arguments pm_triangles {V} p.
Arguments pm_normals {V} p. Arguments pm_iterators {V} p. Arguments pm_taken {V} p. Arguments new_mesh {V}. Arguments contents {V} s. Arguments mesh_alive {V} s.
Arguments AddVertex {V} v. Arguments AddTriangle {V} t. Arguments Reserve {V} n. Arguments CountVertices {V}. Arguments CountTriangles {V}. Arguments Vertices {V}.
Arguments Triangles {V}. Arguments Next {V} k. Arguments ReadPoints {V} j. Arguments ReadNormal {V} j. Arguments DropMesh {V}. Arguments DropIterator {V} k.
Arguments Nothing {V}. Arguments Number {V} n. Arguments Handle {V} k. Arguments Point {V} v. Arguments Taken {V} j. Arguments Corners {V} t. Arguments Normal {V} v.
Arguments Raises {V}. Arguments Exhausted {V}. Arguments Undefined {V}.
Arguments next {V} s k c. Arguments do_statement {V} normal grow room s c. Arguments execute {V} normal grow room l s.
