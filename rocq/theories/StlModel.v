(** Model of the STL files: writing, detection of the encoding, reading.
    Source: queso/io/io_utilities.cpp:22-65, 155-361.
    Simplifications: the file can be opened; memory reservation is left out; double and float are
    parameters: [to_float] gives the bit pattern of static_cast<float>, [of_float] the double with the
    value of a float.  A std::map is a list of entries in the order of insertion; an entry is found
    if its key is equivalent (neither is less than the other), which is what std::map does if the
    comparison is a strict weak ordering (see C35). *)
From Coq Require Import String Ascii Bool NArith Arith List.
From Verif Require Import KeysModel JsonModel BufferModel MeshModel.
Import ListNotations.
Local Open Scope nat_scope.

(** Vector3d and PointType, includes/core_definitions.hpp:33-34. *)
Record vec (D : Type) := Vec { vx : D; vy : D; vz : D }.
Arguments Vec {D} vx vy vz. Arguments vx {D} v. Arguments vy {D} v. Arguments vz {D} v.

(** EncodingType, io/io_utilities.h:40. *)
Inductive encoding := enc_ascii | enc_binary.

(** Outcome of writing a file, with the bytes in the file. *)
Inductive saved :=
| Saved (b : bytes)
| SaveError (b : bytes)        (* exception *)
| SaveTerminated (b : bytes)   (* std::terminate *)
| SaveUndefined.               (* access past the end of a vector *)
(** Outcome of reading a file. *)
Inductive loaded (A : Type) := Loaded (a : A) | LoadError | LoadUndefined | LoadFuel.
Arguments Loaded {A} a. Arguments LoadError {A}. Arguments LoadUndefined {A}. Arguments LoadFuel {A}.

(** A new std::ofstream. *)
Definition new_file : stream := {| f_bytes := []; f_good := true |}.
(** A chain of file << a << b ... *)
Definition put_all (disk : medium) (f : stream) (l : list text) : stream := fold_left (stream_write disk) l f.
(** file.flush() and the test of file.good(), io_utilities.cpp:63-64. *)
Definition finish (f : stream) : saved := if f_good f then Saved (f_bytes f) else SaveError (f_bytes f).

(** ** Input streams *)

(** std::ifstream: the bytes that are left, and good(). *)
Record istream := { i_rest : bytes; i_good : bool }.
Definition new_input (b : bytes) : istream := {| i_rest := b; i_good := true |}.
Definition newline : ascii := "010"%char.
(** The characters before the first newline, and what follows it (None: there is no newline). *)
Fixpoint split_line (b : bytes) : text * option bytes :=
  match b with
  | [] => ([], None)
  | c :: b' => if Ascii.eqb c newline then ([], Some b') else let '(l, r) := split_line b' in (c :: l, r)
  end.
(** std::getline(file, line): the line, the stream, and whether it succeeded.  A stream that is not
    good leaves the line unchanged; at the end of the file eofbit is set, and failbit if nothing was read. *)
Definition getline (s : istream) (line : text) : text * istream * bool :=
  if i_good s then
    match split_line (i_rest s) with
    | (l, Some r) => (l, {| i_rest := r; i_good := true |}, true)
    | (l, None) => (l, {| i_rest := []; i_good := false |}, match l with [] => false | _ => true end)
    end
  else (line, s, false).
(** file.read(p, n): the bytes read; None: fewer than n bytes were left. *)
Definition read (n : nat) (b : bytes) : option (bytes * bytes) :=
  if n <=? length b then Some (firstn n b, skipn n b) else None.

(** std::string::find: whether [b] starts with [a], and whether [a] occurs in [b]. *)
Fixpoint starts_with (a b : text) : bool :=
  match a, b with
  | [], _ => true
  | x :: a', y :: b' => Ascii.eqb x y && starts_with a' b'
  | _ :: _, [] => false
  end.
Fixpoint contains (a b : text) : bool :=
  starts_with a b || match b with [] => false | _ :: b' => contains a b' end.

(** ** Detection of the encoding *)

(** The loop over the next 20 lines, io_utilities.cpp:184-193. *)
Fixpoint has_keyword (n : nat) (s : istream) : bool :=
  let '(line, s', ok) := getline s [] in
  match n with
  | O => false
  | S n' =>
      if ok then
        if contains (lit "facet normal") line || contains (lit "outer loop") line ||
           contains (lit "normal") line || contains (lit "facet") line then true
        else has_keyword n' s'
      else false
  end.
(** GetEncodingType, io_utilities.cpp:170-208. *)
Definition get_encoding (b : bytes) : encoding :=
  let '(first, s, _) := getline (new_input b) [] in                        (* :175 *)
  if negb (starts_with (lit "solid") first) then enc_binary                (* :178 *)
  else if has_keyword 20 s then enc_ascii                                  (* :186-193 *)
  else if existsb (Ascii.eqb zero) (firstn 512 b) then enc_binary          (* :196-205 *)
  else enc_ascii.

(** Outcome of stream >> xf for a stream that is good: a number and the rest of the stream; a value that is stored
    although the number is invalid (0, or the largest float); or nothing is stored, because only whitespace is left. *)
Inductive scanned := Number (bits : N) (rest : text) | Invalid (bits : N) | Missing.

Section Stl.
Variable D : Type.
(** Bit pattern of static_cast<float>(d); static_cast<double> of the float with a bit pattern. *)
Variable to_float : D -> N.
Variable of_float : N -> D.
(** file << d with std::fixed and precision 6. *)
Variable show6 : D -> text.
(** stream >> xf, with the whitespace before the number. *)
Variable scan : text -> scanned.
(** PointComparison, io/io_utilities.h:130-147. *)
Variable less : vec D -> vec D -> bool.
(** TriangleUtilities::Normal, utilities/triangle_utilities.hpp:45-72. *)
Variable normal : tri (vec D) -> vec D.

(** ** Writing *)

(** io_utilities.cpp:36: the text, padded with zeros to 80 bytes. *)
Definition header : bytes := lit "Binary STL generated by QuESo" ++ repeat zero (80 - String.length "Binary STL generated by QuESo").
Definition vec_floats (v : vec D) : list N := [to_float (vx v); to_float (vy v); to_float (vz v)].
(** io_utilities.cpp:40-49 *)
Definition stl_triangle_ops (q : tri (vec D) * vec D) : list op :=
  [Array 4 (vec_floats (snd q) ++ vec_floats (P1 (fst q)) ++ vec_floats (P2 (fst q)) ++ vec_floats (P3 (fst q))); Value 2 0%N].
(** WriteMeshToSTL with binary encoding, io_utilities.cpp:33-49, 63-64; [size]: the size of the buffer of the
    writer (by default 2^20). *)
Definition write_stl_binary (disk : medium) (host : endian) (size : N) (m : mesh (vec D)) : saved :=
  match visit_n m with
  | None => SaveUndefined
  | Some l =>
      match scope disk host little size new_file
        (Raw header :: Value 4 (N.of_nat (num_triangles m) mod 2 ^ 32)%N :: flat_map stl_triangle_ops l) with
      | Normal f => finish f
      | Exception f => SaveError (f_bytes f)
      | Terminated f => SaveTerminated (f_bytes f)
      | BufferOverrun => SaveUndefined
      end
  end.

Definition sp : text := lit " ".
(** io_utilities.cpp:54-58 *)
Definition show_vec (v : vec D) : list text := [show6 (vx v); sp; show6 (vy v); sp; show6 (vz v)].
Definition stl_facet (q : tri (vec D) * vec D) : list text :=
  [lit "facet normal "] ++ show_vec (snd q) ++ [nl ++ lit "outer loop" ++ nl] ++
  [lit "vertex "] ++ show_vec (P1 (fst q)) ++ [nl] ++
  [lit "vertex "] ++ show_vec (P2 (fst q)) ++ [nl] ++
  [lit "vertex "] ++ show_vec (P3 (fst q)) ++ [nl] ++
  [lit "endloop" ++ nl ++ lit "endfacet" ++ nl].
(** WriteMeshToSTL with ascii encoding, io_utilities.cpp:51-60, 63-64. *)
Definition write_stl_ascii (disk : medium) (m : mesh (vec D)) : saved :=
  match visit_n m with
  | None => SaveUndefined
  | Some l => finish (put_all disk new_file
      ([lit "solid QuESoExport" ++ nl] ++ flat_map stl_facet l ++ [lit "endsolid QuESoExport" ++ nl]))
  end.
Definition write_stl (disk : medium) (host : endian) (size : N) (m : mesh (vec D)) (e : encoding) : saved :=
  match e with enc_binary => write_stl_binary disk host size m | enc_ascii => write_stl_ascii disk m end.

(** ** Reading *)

(** index_map.try_emplace, io_utilities.cpp:258 and 336. *)
Definition index_map := list (vec D * nat).
Definition equiv (a b : vec D) : bool := negb (less a b) && negb (less b a).
Definition find_key (im : index_map) (v : vec D) : option (vec D * nat) := find (fun e => equiv (fst e) v) im.
(** io_utilities.cpp:258-268 and 336-346.  The state: the mesh, the map and the next index; the result: the index
    and the coordinates of the vertex. *)
Definition reader := (mesh (vec D) * index_map * nat)%type.
Definition add_point (r : reader) (v : vec D) : reader * (nat * vec D) :=
  let '(m, im, index) := r in
  match find_key im v with
  | Some (k, i) => (r, (i, k))
  | None => ((fst (add_vertex m v), im ++ [(v, index)], S index), (index, v))
  end.
(** The three vertices of a triangle and AddTriangle, io_utilities.cpp:272-273 and 351-352. *)
Definition add_facet (r : reader) (t : tri (vec D)) : reader :=
  let '(r, (i, a)) := add_point r (P1 t) in
  let '(r, (j, b)) := add_point r (P2 t) in
  let '(r, (k, c)) := add_point r (P3 t) in
  let '(m, im, index) := r in
  (add_triangle m (i, j, k) (normal (Tri a b c)), im, index).
Definition new_reader : reader := (empty_mesh, [], 0).
(** rTriangleMesh.Check(), io_utilities.cpp:286 and 360. *)
Definition checked (r : reader) : loaded (mesh (vec D)) :=
  let '(m, _, _) := r in if check m then Loaded m else LoadError.

(** Three floats, io_utilities.cpp:318-333. *)
Definition read_vec (host : endian) (b : bytes) : option (vec D * bytes) :=
  match read 12 b with
  | None => None
  | Some (c, r) =>
      let float i := of_float (from_memory host (firstn 4 (skipn (4 * i) c))) in
      Some (Vec (float 0) (float 1) (float 2), r)
  end.
(** One triangle, io_utilities.cpp:317-357: the normal and the attribute are ignored.
    Simplification: the vertices are added after the last of them has been read, which makes no difference
    because the mesh is not returned if a read fails. *)
Definition read_triangle (host : endian) (b : bytes) : option (tri (vec D) * bytes) :=
  match read 12 b with None => None | Some (_, b) =>
  match read_vec host b with None => None | Some (p1, b) =>
  match read_vec host b with None => None | Some (p2, b) =>
  match read_vec host b with None => None | Some (p3, b) =>
  match read 2 b with None => None | Some (_, b) => Some (Tri p1 p2 p3, b) end end end end end.
(** The loop, io_utilities.cpp:316-358. *)
Fixpoint read_triangles (host : endian) (n : nat) (b : bytes) (r : reader) : option reader :=
  match n with
  | O => Some r
  | S n' => match read_triangle host b with
            | None => None
            | Some (t, b') => read_triangles host n' b' (add_facet r t)
            end
  end.
(** ReadMeshFromSTL_Binary, io_utilities.cpp:289-361. *)
Definition read_stl_binary (host : endian) (b : bytes) : loaded (mesh (vec D)) :=
  match read 80 b with None => LoadError | Some (_, b) =>                 (* :298-301 *)
  match read 4 b with None => LoadError | Some (c, b) =>                  (* :308-311 *)
  match read_triangles host (N.to_nat (from_memory host c)) b new_reader with
  | None => LoadError
  | Some r => checked r
  end end end.

(** stream >> word: whitespace is skipped, then the characters up to the next whitespace are read. *)
Definition is_space (c : ascii) : bool :=
  let n := N_of_ascii c in (n =? 32)%N || ((9 <=? n) && (n <=? 13))%N.
Fixpoint skip_spaces (b : text) : text :=
  match b with [] => [] | c :: b' => if is_space c then skip_spaces b' else b end.
Fixpoint after_word (b : text) : text :=
  match b with [] => [] | c :: b' => if is_space c then b else after_word b' end.
(** One line with a vertex, io_utilities.cpp:248-255.  After a number that cannot be read the stream is not good any
    more, and the remaining coordinates are uninitialised when they are used (None).  Simplification: this is also the
    case here if nothing is left of the line after a number, where the real stream is not good any more. *)
Definition vertex_of_line (line : text) : option (vec D) :=
  let s := after_word (skip_spaces line) in
  match scan s with Number x s =>
  match scan s with Number y s =>
  match scan s with Number z _ | Invalid z => Some (Vec (of_float x) (of_float y) (of_float z))
  | Missing => None end
  | _ => None end
  | _ => None end.
Definition next_vertex (s : istream) (line : text) : loaded (vec D * istream * text) :=
  let '(line, s, ok) := getline s line in
  if ok then match vertex_of_line line with None => LoadUndefined | Some v => Loaded (v, s, line) end
  else LoadError.
Definition lbind {A B} (r : loaded A) (f : A -> loaded B) : loaded B :=
  match r with Loaded a => f a | LoadError => LoadError | LoadUndefined => LoadUndefined | LoadFuel => LoadFuel end.
(** A line that must contain a keyword, io_utilities.cpp:236-239, 275-278, 279-282. *)
Definition expect (k : text) (s : istream) (line : text) : loaded (istream * text) :=
  let '(line, s, _) := getline s line in
  if negb (i_good s) || negb (contains k line) then LoadError else Loaded (s, line).
(** One facet, io_utilities.cpp:235-283, with the same simplification as [read_triangle]. *)
Definition read_facet (s : istream) (line : text) : loaded (tri (vec D) * istream * text) :=
  lbind (expect (lit "outer loop") s line) (fun '(s, line) =>
  lbind (next_vertex s line) (fun '(p1, s, line) =>
  lbind (next_vertex s line) (fun '(p2, s, line) =>
  lbind (next_vertex s line) (fun '(p3, s, line) =>
  lbind (expect (lit "endloop") s line) (fun '(s, line) =>
  lbind (expect (lit "endfacet") s line) (fun '(s, line) => Loaded (Tri p1 p2 p3, s, line))))))).
(** The loop do ... while, io_utilities.cpp:231-284; fuel bounds the number of iterations. *)
Fixpoint read_facets (fuel : nat) (s : istream) (line : text) (r : reader) : loaded reader :=
  match fuel with
  | O => LoadFuel
  | S fuel =>
      if contains (lit "endsolid") line then Loaded r
      else
        lbind (if contains (lit "facet") line
               then lbind (read_facet s line) (fun '(t, s, line) => Loaded (s, line, add_facet r t))
               else Loaded (s, line, r))
        (fun '(s, line, r) =>
          let '(line, s, ok) := getline s line in
          if ok then read_facets fuel s line r else Loaded r)
  end.
(** The loop that skips lines, io_utilities.cpp:226-230: the stream and the last line. *)
Fixpoint skip_to_facet (fuel : nat) (s : istream) (line : text) : loaded (istream * text) :=
  match fuel with
  | O => LoadFuel
  | S fuel =>
      let '(line, s, ok) := getline s line in
      if ok then if contains (lit "facet") line then Loaded (s, line) else skip_to_facet fuel s line
      else Loaded (s, line)
  end.
(** ReadMeshFromSTL_Ascii, io_utilities.cpp:210-287; more iterations than bytes are not possible. *)
Definition read_stl_ascii (b : bytes) : loaded (mesh (vec D)) :=
  let fuel := S (S (length b)) in
  lbind (skip_to_facet fuel (new_input b) []) (fun '(s, line) =>
  lbind (read_facets fuel s line new_reader) checked).

(** ReadMeshFromSTL, io_utilities.cpp:155-164. *)
Definition read_stl (host : endian) (b : bytes) : loaded (mesh (vec D)) :=
  match get_encoding b with enc_ascii => read_stl_ascii b | enc_binary => read_stl_binary host b end.

End Stl.
