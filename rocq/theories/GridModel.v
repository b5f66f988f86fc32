(** Model of the cell indexing of the background grid.
    Source: /repo/queso/containers/grid_indexer.hpp.
    Simplification (whole file): IndexType (64-bit unsigned) is [nat]; no overflow of n0*n1*n2.
    A grid with a zero extent makes the C++ divide by zero (undefined behaviour, lines 67-70);
    theorems therefore carry the hypothesis [grid_ok]. *)
From Coq Require Import Arith List.
Import ListNotations.

(** Vector3i, includes/core_definitions.hpp: an (i,j,k) triple of IndexType. *)
Record c3 := C3 { cx : nat; cy : nat; cz : nat }.

(** mNumberOfElements, grid_indexer.hpp:467 (member), 46-55 (initialisation). *)
Record grid := Grid { nx : nat; ny : nat; nz : nat }.

(** number_of_elements >= 1 in each direction: precondition of lines 65-73. *)
Definition grid_ok (g : grid) : Prop := 0 < nx g /\ 0 < ny g /\ 0 < nz g.

(** PartitionBoxType: pair (first, second), both inclusive. includes/core_definitions.hpp:47, flood_fill.h:50. *)
Record part := Part { pfirst : c3; psecond : c3 }.

(** mGlobalPartition, grid_indexer.hpp:468 (member), 46-55 (initialisation). (n-1 on nat; equal to the C++ value iff n >= 1.) *)
Definition global_part (g : grid) : part :=
  Part (C3 0 0 0) (C3 (nx g - 1) (ny g - 1) (nz g - 1)).

(** enum class IndexInfo, grid_indexer.hpp:35. *)
Inductive info := Middle | LocalEnd | GlobalEnd.

(** enum class Direction, grid_indexer.hpp:36. *)
Inductive dir := XF | XB | YF | YB | ZF | ZB.

(** GetMatrixIndicesFromVectorIndex, grid_indexer.hpp:65-73. *)
Definition mat_of (g : grid) (i : nat) : c3 :=
  let irc := i mod (nx g * ny g) in
  C3 (irc mod nx g) (irc / nx g) (i / (nx g * ny g)).

(** GetVectorIndexFromMatrixIndices, grid_indexer.hpp:81-91 (both overloads). *)
Definition vec_of (g : grid) (c : c3) : nat :=
  cz c * (ny g * nx g) + cy c * nx g + cx c.

(** NumberOfElements, grid_indexer.hpp:152. *)
Definition num_elements (g : grid) : nat := nx g * ny g * nz g.

(** GetNextIndexX with partition, grid_indexer.hpp:200-221. *)
Definition next_x (g : grid) (i : nat) (p : part) : nat * info :=
  let c := mat_of g i in
  if cx c <? cx (psecond p) then (vec_of g (C3 (cx c + 1) (cy c) (cz c)), Middle)
  else if cy c <? cy (psecond p) then (vec_of g (C3 (cx (pfirst p)) (cy c + 1) (cz c)), LocalEnd)
  else if cz c <? cz (psecond p) then (vec_of g (C3 (cx (pfirst p)) (cy (pfirst p)) (cz c + 1)), LocalEnd)
  else (i, GlobalEnd).

(** GetNextIndexY with partition, grid_indexer.hpp:234-255. *)
Definition next_y (g : grid) (i : nat) (p : part) : nat * info :=
  let c := mat_of g i in
  if cy c <? cy (psecond p) then (vec_of g (C3 (cx c) (cy c + 1) (cz c)), Middle)
  else if cx c <? cx (psecond p) then (vec_of g (C3 (cx c + 1) (cy (pfirst p)) (cz c)), LocalEnd)
  else if cz c <? cz (psecond p) then (vec_of g (C3 (cx (pfirst p)) (cy (pfirst p)) (cz c + 1)), LocalEnd)
  else (i, GlobalEnd).

(** GetNextIndexZ with partition, grid_indexer.hpp:268-289. *)
Definition next_z (g : grid) (i : nat) (p : part) : nat * info :=
  let c := mat_of g i in
  if cz c <? cz (psecond p) then (vec_of g (C3 (cx c) (cy c) (cz c + 1)), Middle)
  else if cx c <? cx (psecond p) then (vec_of g (C3 (cx c + 1) (cy c) (cz (pfirst p))), LocalEnd)
  else if cy c <? cy (psecond p) then (vec_of g (C3 (cx (pfirst p)) (cy c + 1) (cz (pfirst p))), LocalEnd)
  else (i, GlobalEnd).

(** GetPreviousIndexX with partition, grid_indexer.hpp:303-324. *)
Definition prev_x (g : grid) (i : nat) (p : part) : nat * info :=
  let c := mat_of g i in
  if cx (pfirst p) <? cx c then (vec_of g (C3 (cx c - 1) (cy c) (cz c)), Middle)
  else if cy (pfirst p) <? cy c then (vec_of g (C3 (cx (psecond p)) (cy c - 1) (cz c)), LocalEnd)
  else if cz (pfirst p) <? cz c then (vec_of g (C3 (cx (psecond p)) (cy (psecond p)) (cz c - 1)), LocalEnd)
  else (i, GlobalEnd).

(** GetPreviousIndexY with partition, grid_indexer.hpp:337-358. *)
Definition prev_y (g : grid) (i : nat) (p : part) : nat * info :=
  let c := mat_of g i in
  if cy (pfirst p) <? cy c then (vec_of g (C3 (cx c) (cy c - 1) (cz c)), Middle)
  else if cx (pfirst p) <? cx c then (vec_of g (C3 (cx c - 1) (cy (psecond p)) (cz c)), LocalEnd)
  else if cz (pfirst p) <? cz c then (vec_of g (C3 (cx (psecond p)) (cy (psecond p)) (cz c - 1)), LocalEnd)
  else (i, GlobalEnd).

(** GetPreviousIndexZ with partition, grid_indexer.hpp:371-392. *)
Definition prev_z (g : grid) (i : nat) (p : part) : nat * info :=
  let c := mat_of g i in
  if cz (pfirst p) <? cz c then (vec_of g (C3 (cx c) (cy c) (cz c - 1)), Middle)
  else if cx (pfirst p) <? cx c then (vec_of g (C3 (cx c - 1) (cy c) (cz (psecond p))), LocalEnd)
  else if cy (pfirst p) <? cy c then (vec_of g (C3 (cx (psecond p)) (cy c - 1) (cz (psecond p))), LocalEnd)
  else (i, GlobalEnd).

(** GetNextIndex(i, Direction, partition), grid_indexer.hpp:160-187. *)
Definition next_index (g : grid) (i : nat) (d : dir) (p : part) : nat * info :=
  match d with
  | XF => next_x g i p | XB => prev_x g i p
  | YF => next_y g i p | YB => prev_y g i p
  | ZF => next_z g i p | ZB => prev_z g i p
  end.

(** GetNextIndex(i, Direction) on the whole grid, grid_indexer.hpp:160-163. *)
Definition next_index_g (g : grid) (i : nat) (d : dir) : nat * info :=
  next_index g i d (global_part g).

(** IsEnd(i, Direction, partition), grid_indexer.hpp:407-427. *)
Definition is_end (g : grid) (i : nat) (d : dir) (p : part) : bool :=
  let c := mat_of g i in
  match d with
  | XF => cx c =? cx (psecond p) | XB => cx c =? cx (pfirst p)
  | YF => cy c =? cy (psecond p) | YB => cy c =? cy (pfirst p)
  | ZF => cz c =? cz (psecond p) | ZB => cz c =? cz (pfirst p)
  end.

(** ReverseDirection, grid_indexer.hpp:439-446. *)
Definition reverse_dir (d : dir) : dir :=
  match d with XF => XB | XB => XF | YF => YB | YB => YF | ZF => ZB | ZB => ZF end.

(** GetDirections, grid_indexer.hpp:431-435. *)
Definition directions : list dir := [XF; XB; YF; YB; ZF; ZB].

(** Repeated stepping until 'global end' is reported: the loop pattern of every caller
    (e.g. multiple_elements.hpp:128-147). [None] when [fuel] is exhausted.
    Result: the visited cells, in order. *)
Fixpoint walk (g : grid) (d : dir) (p : part) (fuel : nat) (i : nat) : option (list nat) :=
  match fuel with
  | 0 => None
  | S fuel' =>
      match snd (next_index g i d p) with
      | GlobalEnd => Some [i]
      | _ => match walk g d p fuel' (fst (next_index g i d p)) with
             | Some l => Some (i :: l)
             | None => None
             end
      end
  end.
