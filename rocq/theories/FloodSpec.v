(** Specification vocabulary for the cell classification: face neighbours, connected regions, votes.
    Does not use the slabs, the stacks or the merging of the model. *)
From Coq Require Import Arith List Bool ZArith Relations.
From Verif Require Import GridModel GridSpec GridStoreModel GridGeoModel Geo.
Import ListNotations.

Section Spec.
Variable g : grid.
Variable T : nat -> bool.
Variable P : nat -> dir -> bool.
Variable V : nat -> nat -> dir -> bool.

(** [nb d i j]: cells i and j of the grid share a face, j lies in direction d of i *)
Definition nb (d : dir) (i j : nat) : Prop :=
  i < num_elements g /\ j < num_elements g /\ face_nb d (mat_of g i) (mat_of g j).

(** two uncut face neighbours whose common face is not cut *)
Definition linked (i j : nat) : Prop := exists d, nb d i j /\ T i = false /\ T j = false /\ P j d = false.

(** same region: a chain of uncut cells, each linked to the next *)
Definition connected : nat -> nat -> Prop := clos_refl_trans nat linked.

(** the face between two uncut cells is judged the same from both sides *)
Definition symmetric_faces : Prop :=
  forall d i j, nb d i j -> T i = false -> T j = false -> P j d = P i (reverse_dir d).

(** [comp] lists the cells of the region of cell i, each once *)
Definition is_region (i : nat) (comp : list nat) : Prop := NoDup comp /\ forall j, In j comp <-> connected i j.

Fixpoint zsum (f : nat -> Z) (l : list nat) : Z := match l with [] => 0%Z | x :: l' => (f x + zsum f l')%Z end.

(** the cell in direction d, if there is one *)
Definition neighbour (i : nat) (d : dir) : option nat :=
  let c := mat_of g i in
  let some x y z := Some (vec_of g (C3 x y z)) in
  match d with
  | XF => if cx c + 1 <? nx g then some (cx c + 1) (cy c) (cz c) else None
  | YF => if cy c + 1 <? ny g then some (cx c) (cy c + 1) (cz c) else None
  | ZF => if cz c + 1 <? nz g then some (cx c) (cy c) (cz c + 1) else None
  | XB => if 0 <? cx c then some (cx c - 1) (cy c) (cz c) else None
  | YB => if 0 <? cy c then some (cx c) (cy c - 1) (cz c) else None
  | ZB => if 0 <? cz c then some (cx c) (cy c) (cz c - 1) else None
  end.

(** vote of cell i obtained from cell j in direction d: only if the enlarged box of j is cut *)
Definition vote (i j : nat) (d : dir) : Z := if P j d then (if V i j d then 1 else -1)%Z else 0%Z.

(** votes of a cell from its face neighbours *)
Definition face_votes (i : nat) : Z :=
  fold_right (fun d acc => ((match neighbour i d with Some j => vote i j d | None => 0 end) + acc)%Z) 0%Z directions.

(** Votes that the implementation adds at the two ends of the grid in the partition direction [df]/[db]: they are taken
    from the cell at which the traversal order continues ([next_index_g], the wrapped-around cell). *)
Definition wrap_vote (i : nat) (d : dir) : Z :=
  match neighbour i d with Some _ => 0%Z | None => vote i (fst (next_index_g g i d)) d end.
Definition wrap_votes (df db : dir) (i : nat) : Z := (wrap_vote i df + wrap_vote i db)%Z.

End Spec.
