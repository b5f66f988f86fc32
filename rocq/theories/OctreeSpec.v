(** Specification vocabulary for the octree: dyadic cells of a box, nodes and leaves of a tree. *)
From Coq Require Import Arith Reals List Bool.
From Verif Require Import Geo GridStoreModel OctreeModel.
Import ListNotations.
Local Open Scope R_scope.

(** position (i, j, l) of a cell in the division of a box into 2^k x 2^k x 2^k equal boxes *)
Record cell := Cell { c_k : nat; c_i : nat; c_j : nat; c_l : nat }.
Definition cell_ok (c : cell) : Prop := (c_i c < 2 ^ c_k c /\ c_j c < 2 ^ c_k c /\ c_l c < 2 ^ c_k c)%nat.
Definition dy1 (lo up : R) (k i : nat) : R := lo + INR i * ((up - lo) / 2 ^ k).
Definition dyadic (B : box) (c : cell) : box :=
  Box (Pt (dy1 (px (lower B)) (px (upper B)) (c_k c) (c_i c)) (dy1 (py (lower B)) (py (upper B)) (c_k c) (c_j c)) (dy1 (pz (lower B)) (pz (upper B)) (c_k c) (c_l c)))
      (Pt (dy1 (px (lower B)) (px (upper B)) (c_k c) (S (c_i c))) (dy1 (py (lower B)) (py (upper B)) (c_k c) (S (c_j c))) (dy1 (pz (lower B)) (pz (upper B)) (c_k c) (S (c_l c)))).
(** the eight cells of the next level inside a cell *)
Definition sub_cells (c : cell) : list cell :=
  flat_map (fun a => flat_map (fun b => map (fun d => Cell (S (c_k c)) (2 * c_i c + a) (2 * c_j c + b) (2 * c_l c + d)) [0;1]%nat) [0;1]%nat) [0;1]%nat.
(** the cell of level k that contains a cell *)
Definition ancestor (c : cell) (k : nat) : cell :=
  let s := (2 ^ (c_k c - k))%nat in Cell k (c_i c / s) (c_j c / s) (c_l c / s).

(** all nodes of a tree and the childless ones *)
Fixpoint nodes (t : node) : list node :=
  match t with Node _ _ _ _ ch => t :: flat_map (fun o => match o with None => [] | Some c => nodes c end) ch end.
Definition childless (t : node) : bool := forallb (fun o => match o with None => true | Some _ => false end) (n_children t).
Definition leaves (t : node) : list node := List.filter childless (nodes t).

(** a history of refinement calls on a new octree; None: a call threw *)
Fixpoint refinements (state : box -> istate) (h : list (nat * nat)) (t : octree) : option octree :=
  match h with
  | [] => Some t
  | (mn, mx) :: h => match octree_refine state mn mx t with None => None | Some t => refinements state h t end
  end.
