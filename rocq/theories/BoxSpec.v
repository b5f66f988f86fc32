(** Specification vocabulary for the GGQ boxes. *)
From Coq Require Import Arith List.
From Verif Require Import GridModel GridSpec.
Import ListNotations.

(** position c lies in the cuboid with first cell lo and s cells in each direction *)
Definition within (lo s c : c3) : Prop :=
  cx lo <= cx c < cx lo + cx s /\ cy lo <= cy c < cy lo + cy s /\ cz lo <= cz c < cz lo + cz s.

(** the elements [box] are exactly the cells of a cuboid of size s inside the grid, each once *)
Definition is_cuboid (g : grid) (box : list nat) (s : c3) : Prop :=
  NoDup box /\ (forall i, In i box -> i < num_elements g) /\ 0 < cx s /\ 0 < cy s /\ 0 < cz s /\
  exists lo, cx lo + cx s <= nx g /\ cy lo + cy s <= ny g /\ cz lo + cz s <= nz g /\
    forall c, in_grid g c -> (In (vec_of g c) box <-> within lo s c).

(** the cell that lies "behind" the end of a row in the traversal order is not untrimmed *)
Definition no_wrap (g : grid) (U : nat -> bool) : Prop :=
  forall c c' d, in_grid g c -> U (vec_of g c) = true -> (forall n, face_nb d c n -> ~ in_grid g n) ->
    next_index_g g (vec_of g c) d = (vec_of g c', LocalEnd) -> in_grid g c' -> U (vec_of g c') = false.

(** no untrimmed cell lies on the outermost layer of the grid *)
Definition interior (g : grid) (U : nat -> bool) : Prop :=
  forall c, in_grid g c -> U (vec_of g c) = true ->
    0 < cx c /\ cx c + 1 < nx g /\ 0 < cy c /\ cy c + 1 < ny g /\ 0 < cz c /\ cz c + 1 < nz g.
