(** Model of the VTK files: meshes, elements and integration points.
    Source: queso/io/io_utilities.cpp:67-153, queso/io/io_utilities.tpp:94-279, queso/io/io_utilities.h:176-186.
    Simplifications: the file can be opened; memory reservation is left out; double is a parameter: [bits] gives its bit
    pattern, [show15] the text of file << d with std::fixed and precision 15.  The elements of a background grid are given
    by the list of their bounds or points in global space, in the order of GetElementViews. *)
From Coq Require Import String Ascii Bool NArith Arith List.
From Verif Require Import KeysModel JsonModel BufferModel MeshModel StlModel.
Import ListNotations.
Local Open Scope nat_scope.

(** A part of a writing function: text that is put into the stream, or the scope of a BinaryBufferWriter. *)
Inductive step := Put (l : list text) | Block (l : list op).
Fixpoint run (disk : medium) (host : endian) (size : N) (steps : list step) (f : stream) : saved :=
  match steps with
  | [] => finish f
  | Put l :: steps => run disk host size steps (put_all disk f l)
  | Block l :: steps =>
      match scope disk host big size f l with
      | Normal f => run disk host size steps f
      | Exception f => SaveError (f_bytes f)
      | Terminated f => SaveTerminated (f_bytes f)
      | BufferOverrun => SaveUndefined
      end
  end.

(** std::size_t and std::uint32_t. *)
Definition size_of_nat (n : nat) : N := (N.of_nat n mod 2 ^ 64)%N.
Definition size_mul (a b : N) : N := ((a * b) mod 2 ^ 64)%N.
Definition uint32 (n : N) : N := (n mod 2 ^ 32)%N.

Section Vtk.
Variable D : Type.
Variable bits : D -> N.
Variable show15 : D -> text.

(** io_utilities.cpp:92-95, io_utilities.tpp:107-110, 197-200. *)
Definition vtk_header (e : encoding) : step :=
  Put [lit "# vtk DataFile Version 4.1" ++ nl; lit "vtk output" ++ nl;
       match e with enc_binary => lit "BINARY" ++ nl | enc_ascii => lit "ASCII" ++ nl end; lit "DATASET UNSTRUCTURED_GRID" ++ nl].
(** Three coordinates, io_utilities.cpp:105-113, io_utilities.tpp:123-135, 211-221. *)
Definition coord_ops (v : vec D) : list op := [Value 8 (bits (vx v)); Value 8 (bits (vy v)); Value 8 (bits (vz v))].
Definition coord_text (v : vec D) : list text := [show15 (vx v); sp; show15 (vy v); sp; show15 (vz v); nl].
Definition vtk_points (e : encoding) (count : N) (l : list (vec D)) : list step :=
  [Put [lit "POINTS "; show_index count; lit " double" ++ nl];
   match e with enc_binary => Block (flat_map coord_ops l) | enc_ascii => Put (flat_map coord_text l) end].
(** A cell with its number of points and its indices; in binary files each of them is a std::uint32_t. *)
Definition cell_ops (c : list N) : list op := map (fun i => Value 4 (uint32 i)) c.
(** In text files the numbers are separated by spaces. *)
Definition cell_text (c : list N) : list text :=
  match c with [] => [nl] | k :: c' => [show_index k] ++ flat_map (fun i => [sp; show_index i]) c' ++ [nl] end.
Definition vtk_cells (e : encoding) (n total : N) (l : list (list N)) : list step :=
  [Put [lit "CELLS "; show_index n; lit " "; show_index total; nl];
   match e with enc_binary => Block (flat_map cell_ops l) | enc_ascii => Put (flat_map cell_text l) end].
Definition vtk_types (e : encoding) (n : N) (count : nat) (type : N) : list step :=
  [Put [lit "CELL_TYPES "; show_index n; nl];
   match e with enc_binary => Block (repeat (Value 4 type) count) | enc_ascii => Put (flat_map (fun _ => [show_index type; nl]) (repeat tt count)) end].

(** WriteMeshToVTK, io_utilities.cpp:76-88: the vertices of each triangle and their indices. *)
Definition tri_vertices (q : tri (vec D)) : list (vec D) := [P1 q; P2 q; P3 q].
Definition mesh_cell (i : nat) : list N := let v0 := N.of_nat (3 * i) in [3; v0 + 0; v0 + 1; v0 + 2]%N.
Definition mesh_steps (e : encoding) (m : mesh (vec D)) (l : list (tri (vec D))) : list step :=
  let vertices := flat_map tri_vertices l in
  let num_elements := size_of_nat (num_triangles m) in
  [vtk_header e] ++ vtk_points e (size_of_nat (length vertices)) vertices ++
  vtk_cells e num_elements (size_mul num_elements 4) (map mesh_cell (seq 0 (num_triangles m))) ++
  vtk_types e num_elements (num_triangles m) 5.
(** WriteMeshToVTK, io_utilities.cpp:67-153. *)
Definition write_mesh_vtk (disk : medium) (host : endian) (size : N) (m : mesh (vec D)) (e : encoding) : saved :=
  match visit m with
  | None => SaveUndefined
  | Some l => run disk host size (mesh_steps e m l) new_file
  end.

(** GetHexahedronVertices, io_utilities.h:176-186. *)
Definition hexahedron (b : vec D * vec D) : list (vec D) :=
  let '(l, u) := b in
  [Vec (vx l) (vy l) (vz l); Vec (vx u) (vy l) (vz l); Vec (vx u) (vy u) (vz l); Vec (vx l) (vy u) (vz l);
   Vec (vx l) (vy l) (vz u); Vec (vx u) (vy l) (vz u); Vec (vx u) (vy u) (vz u); Vec (vx l) (vy u) (vz u)].
(** The indices of a cell, io_utilities.tpp:143-158. *)
Definition hexahedron_cell (e : encoding) (i : nat) : list N :=
  8%N :: map (fun j => match e with
                       | enc_binary => uint32 (8 * uint32 (N.of_nat i) + j)
                       | enc_ascii => ((8 * N.of_nat i + j) mod 2 ^ 64)%N
                       end) [0; 1; 2; 3; 4; 5; 6; 7]%N.
Definition element_steps (e : encoding) (l : list (vec D * vec D)) : list step :=
  let num_elements := size_of_nat (length l) in
  [vtk_header e] ++ vtk_points e (size_mul num_elements 8) (flat_map hexahedron l) ++
  vtk_cells e num_elements (size_mul num_elements 9) (map (hexahedron_cell e) (seq 0 (length l))) ++
  vtk_types e num_elements (length l) 12.
(** WriteElementsToVTK, io_utilities.tpp:94-177. *)
Definition write_elements_vtk (disk : medium) (host : endian) (size : N) (l : list (vec D * vec D)) (e : encoding) : saved :=
  run disk host size (element_steps e l) new_file.

(** An integration point in global space with its weight. *)
Record wpoint := WPoint { wp_pos : vec D; wp_weight : D }.
Definition point_steps (e : encoding) (l : list (list wpoint)) : list step :=
  let points := concat l in
  let num_points := size_of_nat (fold_left (fun acc ps => acc + length ps) l 0) in                 (* :189-193 *)
  let num_elements := num_points in
  [vtk_header e] ++ vtk_points e num_points (flat_map (map wp_pos) l) ++
  vtk_cells e num_elements (size_mul num_elements 2) (map (fun i => [1%N; N.of_nat i]) (seq 0 (length points))) ++
  vtk_types e num_elements (length points) 1 ++
  [Put [lit "POINT_DATA "; show_index num_points; nl]; Put [lit "SCALARS Weights double 1" ++ nl]; Put [lit "LOOKUP_TABLE default" ++ nl];
   match e with
   | enc_binary => Block (flat_map (map (fun q => Value 8 (bits (wp_weight q)))) l)
   | enc_ascii => Put (flat_map (fun ps => flat_map (fun q => [show15 (wp_weight q); nl]) ps) l)
   end].
(** WritePointsToVTK, io_utilities.tpp:179-279. *)
Definition write_points_vtk (disk : medium) (host : endian) (size : N) (l : list (list wpoint)) (e : encoding) : saved :=
  run disk host size (point_steps e l) new_file.
End Vtk.
