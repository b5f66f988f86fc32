(** Model of the cell classification by flood fill.
    Source: /repo/queso/embedding/flood_fill.cpp.
    Oracles (arbitrary functions, section variables):
      [T i]      IsTrimmed on the box of cell i                                  (flood_fill.cpp:153, 208)
      [P n d]    IsTrimmed on the box of cell n enlarged by GetOffsets(d)        (flood_fill.cpp:197, 261, 274, ...)
      [V i n d]  OnBoundedSideOfClippedSection(center of i, perturbed box of n)  (flood_fill.cpp:377-387)
    Simplifications (whole file): vectors indexed by cell are functions [nat -> _] (no out-of-range access occurs on
    grids with n >= 1); [int] votes are [Z]; ceil of a double quotient is the exact integer ceiling;
    each slab has its own [visited] vector (firstprivate, schedule(static,1) with at most num_threads slabs,
    line 124); the concurrent writes to the state vector all store 'trimmed', so slabs are run one after another;
    the order in which threads push their groups (critical section, line 137) is a free permutation, see
    [classify_rel]. *)
From Coq Require Import Arith List Bool ZArith Permutation.
From Verif Require Import GridModel GridStoreModel GridGeoModel Geo.
Import ListNotations.

(** f[i] = v *)
Definition upd {B} (f : nat -> B) (i : nat) (v : B) : nat -> B := fun j => if j =? i then v else f j.

(** std::set<IndexType>::insert on a sorted list without duplicates. *)
Fixpoint set_insert (x : nat) (l : list nat) : list nat :=
  match l with
  | [] => [x]
  | y :: l' => if x <? y then x :: l else if x =? y then l else y :: set_insert x l'
  end.
(** std::set<IndexType>::insert(first, last) *)
Definition set_union (l new : list nat) : list nat := fold_left (fun s x => set_insert x s) new l.
(** std::set<IndexType>::find(x) != end() *)
Definition set_mem (x : nat) (l : list nat) : bool := existsb (Nat.eqb x) l.

(** GroupSetType, flood_fill.h:48: (partition index, element indices, inside count). *)
Record group := Group { g_part : nat; g_set : list nat; g_count : Z }.

(** partition_index, flood_fill.cpp:46-66: first direction with the maximal number of elements. *)
Definition part_axis (g : grid) : axis :=
  let m := Nat.max (Nat.max (nx g) (ny g)) (nz g) in
  if nx g =? m then AX else if ny g =? m then AY else AZ.

(** partition_size, flood_fill.cpp:76-77. *)
Definition part_size (n threads : nat) : nat := Nat.max ((n + threads - 1) / threads) 1.

(** replace one entry of a Vector3i *)
Definition set_axis (a : axis) (c : c3) (v : nat) : c3 :=
  match a with AX => C3 v (cy c) (cz c) | AY => C3 (cx c) v (cz c) | AZ => C3 (cx c) (cy c) v end.

(** partitions, flood_fill.cpp:79-87. *)
Definition partitions (g : grid) (threads : nat) : list part :=
  let a := part_axis g in
  let n := n_at a g in
  let sz := part_size n threads in
  flat_map (fun i => if sz * i <? n
                     then [Part (set_axis a (pfirst (global_part g)) (sz * i))
                                (set_axis a (psecond (global_part g)) (Nat.min (sz * (i + 1)) n - 1))]
                     else [])
           (seq 0 threads).

(** walk_directions, flood_fill.cpp:229-230: the forward and backward direction of the partition axis. *)
Definition walk_fwd (a : axis) : dir := match a with AX => XF | AY => YF | AZ => ZF end.
Definition walk_bwd (a : axis) : dir := match a with AX => XB | AY => YB | AZ => ZB end.

Section Flood.
Variable g : grid.
Variable T : nat -> bool.
Variable P : nat -> dir -> bool.
Variable V : nat -> nat -> dir -> bool.

(** GetIsInsideCount, flood_fill.cpp:377-387. *)
Definition inside_count (i n : nat) (d : dir) : Z := if V i n d then 1%Z else (-1)%Z.

(** rStates, rVisited and the current group *)
Record fst_ := FS { fs_visited : nat -> bool; fs_states : nat -> istate; fs_group : group }.

(** Move, flood_fill.cpp:181-221. *)
Definition move (p : part) (i : nat) (d : dir) (s : fst_) : option nat * fst_ :=
  let '(n, inf) := next_index g i d p in
  match inf with
  | Middle =>
      if P n d then
        (None, FS (fs_visited s) (fs_states s)
                  (Group (g_part (fs_group s)) (g_set (fs_group s)) (g_count (fs_group s) + inside_count i n d)))
      else if fs_visited s n then (None, s)
      else if T n then (None, FS (upd (fs_visited s) n true) (upd (fs_states s) n Trimmed) (fs_group s))
      else (Some n, FS (upd (fs_visited s) n true) (fs_states s)
                       (Group (g_part (fs_group s)) (set_insert n (g_set (fs_group s))) (g_count (fs_group s))))
  | _ => (None, s)
  end.

(** the for-loop over the six directions, flood_fill.cpp:168-170 (results in direction order). *)
Fixpoint moves (p : part) (i : nat) (ds : list dir) (s : fst_) : list nat * fst_ :=
  match ds with
  | [] => ([], s)
  | d :: ds' =>
      let '(r, s1) := move p i d s in
      let '(rs, s2) := moves p i ds' s1 in
      (match r with Some n => n :: rs | None => rs end, s2)
  end.

(** the while-loop of Fill, flood_fill.cpp:165-177: stack top is the list head, new indices are pushed in direction
    order. None: fuel exhausted. *)
Fixpoint fill_loop (fuel : nat) (p : part) (stack : list nat) (s : fst_) : option fst_ :=
  match stack with
  | [] => Some s
  | i :: stack' =>
      match fuel with
      | 0 => None
      | S fuel' =>
          let '(new, s') := moves p i directions s in
          fill_loop fuel' p (rev new ++ stack') s'
      end
  end.

(** Fill, flood_fill.cpp:146-179. [k] is the partition index stored in the group by the caller (line 133).
    The fuel is the number of cells plus one. *)
Definition fill (p : part) (k i : nat) (vis : nat -> bool) (st : nat -> istate) : option fst_ :=
  let vis' := upd vis i true in
  if T i then Some (FS vis' (upd st i Trimmed) (Group k [] 0))
  else fill_loop (S (num_elements g)) p [i] (FS vis' st (Group k [i] 0)).

(** the cells of a slab in the order of the three nested loops, flood_fill.cpp:127-130. *)
Definition range (a b : nat) : list nat := seq a (b + 1 - a).
Definition slab_cells (p : part) : list nat :=
  flat_map (fun i => flat_map (fun j => map (fun k => vec_of g (C3 i j k))
    (range (cz (pfirst p)) (cz (psecond p)))) (range (cy (pfirst p)) (cy (psecond p)))) (range (cx (pfirst p)) (cx (psecond p))).

(** body of the loops, flood_fill.cpp:131-139, folded over the cells of one slab. *)
Fixpoint fill_cells (p : part) (k : nat) (cells : list nat) (vis : nat -> bool) (st : nat -> istate)
    (groups : list group) : option ((nat -> istate) * list group) :=
  match cells with
  | [] => Some (st, groups)
  | i :: cells' =>
      if vis i then fill_cells p k cells' vis st groups
      else match fill p k i vis st with
           | None => None
           | Some s => fill_cells p k cells' (fs_visited s) (fs_states s)
                         (match g_set (fs_group s) with [] => groups | _ => groups ++ [fs_group s] end)
           end
  end.

(** PartitionedFill, flood_fill.cpp:120-144 (slabs one after another, see the header). *)
Fixpoint fill_slabs (k : nat) (ps : list part) (st : nat -> istate) (groups : list group)
    : option ((nat -> istate) * list group) :=
  match ps with
  | [] => Some (st, groups)
  | p :: ps' =>
      match fill_cells p k (slab_cells p) (fun _ => false) st groups with
      | None => None
      | Some (st', groups') => fill_slabs (k + 1) ps' st' groups'
      end
  end.
Definition fill_all (threads : nat) : option ((nat -> istate) * list group) :=
  fill_slabs 0 (partitions g threads) (fun _ => Outside) [].

(** ** MergeGroups *)

(** position along the partition direction, flood_fill.cpp:255 *)
Definition pos (a : axis) (i : nat) : Z := Z.of_nat (c_at a (mat_of g i)).

(** upper boundary indices and bound, flood_fill.cpp:259-271: (bounding box upper, boundary_indices[1]). *)
Definition upper_step (a : axis) (acc : Z * list nat) (i : nat) : Z * list nat :=
  if (fst acc <=? pos a i)%Z then
    if P (fst (next_index_g g i (walk_fwd a))) (walk_fwd a) then acc
    else if (fst acc <? pos a i)%Z then (pos a i, set_insert i [])
    else (fst acc, set_insert i (snd acc))
  else acc.
(** lower boundary indices and bound, flood_fill.cpp:273-284. *)
Definition lower_step (a : axis) (acc : Z * list nat) (i : nat) : Z * list nat :=
  if (pos a i <=? fst acc)%Z then
    if P (fst (next_index_g g i (walk_bwd a))) (walk_bwd a) then acc
    else if (pos a i <? fst acc)%Z then (pos a i, set_insert i [])
    else (fst acc, set_insert i (snd acc))
  else acc.
(** initial bounds, flood_fill.cpp:233-235. *)
Definition upper_boundary (a : axis) (l : list nat) : list nat := snd (fold_left (upper_step a) l ((-1)%Z, [])).
Definition lower_boundary (a : axis) (l : list nat) : list nat :=
  snd (fold_left (lower_step a) l (Z.of_nat (n_at a g + 1), [])).

(** votes added at the partition boundaries, flood_fill.cpp:287-304: note that index_info of GetNextIndex is not
    looked at. *)
Definition boundary_votes (a : axis) (p : part) (i : nat) : Z :=
  ((if (c_at a (mat_of g i) =? c_at a (psecond p))%nat then
      let n := fst (next_index_g g i (walk_fwd a)) in
      if P n (walk_fwd a) then inside_count i n (walk_fwd a) else 0 else 0)
   + (if (c_at a (mat_of g i) =? c_at a (pfirst p))%nat then
      let n := fst (next_index_g g i (walk_bwd a)) in
      if P n (walk_bwd a) then inside_count i n (walk_bwd a) else 0 else 0))%Z.

(** a group with its boundary index sets [0] (lower) and [1] (upper) *)
Record bgroup := BGroup { b_group : group; b_lower : list nat; b_upper : list nat }.

(** body of the parallel loop, flood_fill.cpp:243-306. A partition index outside rPartitions does not occur
    (default: the global partition). *)
Definition with_boundary (a : axis) (ps : list part) (gr : group) : bgroup :=
  BGroup (Group (g_part gr) (g_set gr)
            (fold_left (fun acc i => (acc + boundary_votes a (nth (g_part gr) ps (global_part g)) i)%Z) (g_set gr) (g_count gr)))
         (lower_boundary a (g_set gr)) (upper_boundary a (g_set gr)).

(** inner loop of GroupFill over the boundary cells, flood_fill.cpp:349-357. *)
Fixpoint touches (d : dir) (cur other : list nat) : bool :=
  match cur with
  | [] => false
  | i :: cur' =>
      let '(n, inf) := next_index_g g i d in
      match inf with
      | Middle => if set_mem n other then true else touches d cur' other
      | _ => false
      end
  end.

(** are_neighbours, flood_fill.cpp:343-359: forward direction uses current[1]/other[0], backward current[0]/other[1]. *)
Definition are_neighbours (a : axis) (cur other : bgroup) : bool :=
  touches (walk_fwd a) (b_upper cur) (b_lower other) || touches (walk_bwd a) (b_lower cur) (b_upper other).

(** std::abs(static_cast<int>(partition_index-other_partition_index)) <= 1, flood_fill.cpp:341. *)
Definition near (x y : nat) : bool := (Z.abs (Z.of_nat x - Z.of_nat y) <=? 1)%Z.

(** for-loop over all groups, flood_fill.cpp:339-371. State: visited, stack, merged group.
    [i0] is the index of the head of the list. *)
Fixpoint scan_groups (a : axis) (cur : bgroup) (gs : list bgroup) (i0 : nat)
    (vis : nat -> bool) (stack : list nat) (m : group) : (nat -> bool) * list nat * group :=
  match gs with
  | [] => (vis, stack, m)
  | o :: gs' =>
      if negb (vis i0) && near (g_part (b_group cur)) (g_part (b_group o)) && are_neighbours a cur o then
        scan_groups a cur gs' (i0 + 1) (upd vis i0 true) (i0 :: stack)
          (Group (g_part m) (set_union (g_set m) (g_set (b_group o))) (g_count m + g_count (b_group o)))
      else scan_groups a cur gs' (i0 + 1) vis stack m
  end.

(** while-loop of GroupFill, flood_fill.cpp:333-373. None: fuel exhausted. *)
Fixpoint group_loop (fuel : nat) (a : axis) (gs : list bgroup) (stack : list nat) (vis : nat -> bool) (m : group)
    : option ((nat -> bool) * group) :=
  match stack with
  | [] => Some (vis, m)
  | c :: stack' =>
      match fuel with
      | 0 => None
      | S fuel' =>
          match nth_error gs c with
          | None => None
          | Some cur =>
              let '(vis', stack'', m') := scan_groups a cur gs 0 vis stack' m in
              group_loop fuel' a gs stack'' vis' m'
          end
      end
  end.

(** loop over the groups, flood_fill.cpp:309-315 with GroupFill, 318-375. *)
Fixpoint merge_loop (a : axis) (gs : list bgroup) (idx : list nat) (vis : nat -> bool) (out : list group)
    : option (list group) :=
  match idx with
  | [] => Some out
  | i :: idx' =>
      if vis i then merge_loop a gs idx' vis out
      else match nth_error gs i with
           | None => None
           | Some gi =>
               match group_loop (S (length gs)) a gs [i] (upd vis i true) (b_group gi) with
               | None => None
               | Some (vis', m) => merge_loop a gs idx' vis' (out ++ [m])
               end
           end
  end.
Definition merge_groups (threads : nat) (gs : list group) : option (list group) :=
  let a := part_axis g in
  let bs := map (with_boundary a (partitions g threads)) gs in
  merge_loop a bs (seq 0 (length bs)) (fun _ => false) [].

(** Mark states, flood_fill.cpp:108-115. *)
Definition mark_group (st : nat -> istate) (gr : group) : nat -> istate :=
  let s := if (0 <? g_count gr)%Z then Inside else Outside in
  fold_left (fun st i => upd st i s) (g_set gr) st.
Definition mark_states (st : nat -> istate) (gs : list group) : nat -> istate := fold_left mark_group gs st.

(** ClassifyElements, flood_fill.cpp:39-118, for a given order [gs'] in which the groups were published. *)
Definition finish (threads : nat) (st : nat -> istate) (gs' : list group) : option (nat -> istate) :=
  match merge_groups threads gs' with
  | None => None
  | Some merged => Some (mark_states st merged)
  end.

(** ClassifyElements with one particular schedule (groups in slab order), for computations. *)
Definition classify_seq (threads : nat) : option (nat -> istate) :=
  match fill_all threads with
  | None => None
  | Some (st, gs) => finish threads st gs
  end.

(** ClassifyElements for an arbitrary schedule: the groups of the slabs are published in any order. *)
Definition classify_rel (threads : nat) (res : option (nat -> istate)) : Prop :=
  match fill_all threads with
  | None => res = None
  | Some (st, gs) => exists gs', Permutation gs gs' /\ res = finish threads st gs'
  end.

End Flood.
