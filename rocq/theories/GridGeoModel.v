(** Model of the cell boxes of the background grid.
    Source: /repo/queso/containers/grid_indexer.hpp. Simplification: double is R. *)
From Coq Require Import Reals.
From Verif Require Import Geo GridModel.
Local Open Scope R_scope.

(** number of elements / position along one axis (array index), grid_indexer.hpp:451-460. *)
Definition n_at (a : axis) (g : grid) : nat := match a with AX => nx g | AY => ny g | AZ => nz g end.
Definition c_at (a : axis) (c : c3) : nat := match a with AX => cx c | AY => cy c | AZ => cz c end.

(** delta[a], grid_indexer.hpp:454-456. *)
Definition delta (g : grid) (b : box) (a : axis) : R :=
  Rabs (at_ a (upper b) - at_ a (lower b)) / INR (n_at a g).

(** GetBoundingBoxFromIndex, grid_indexer.hpp:451-460. *)
Definition cell_box (g : grid) (b : box) (c : c3) : box :=
  Box (Pt (px (lower b) + delta g b AX * INR (cx c))
          (py (lower b) + delta g b AY * INR (cy c))
          (pz (lower b) + delta g b AZ * INR (cz c)))
      (Pt (px (lower b) + delta g b AX * (1 + INR (cx c)))
          (py (lower b) + delta g b AY * (1 + INR (cy c)))
          (pz (lower b) + delta g b AZ * (1 + INR (cz c)))).

(** the members of GridIndexer, grid_indexer.hpp:465-469 *)
Record indexer := Indexer { gi_grid : grid; gi_xyz : box; gi_uvw : box; gi_bspline : bool }.

(** GetBoundingBoxXYZFromIndex(Index), grid_indexer.hpp:96-99. *)
Definition box_xyz (gi : indexer) (i : nat) : box := cell_box (gi_grid gi) (gi_xyz gi) (mat_of (gi_grid gi) i).

(** GetBoundingBoxUVWFromIndex(Index), grid_indexer.hpp:120-126. *)
Definition box_uvw (gi : indexer) (i : nat) : box :=
  if gi_bspline gi then cell_box (gi_grid gi) (gi_uvw gi) (mat_of (gi_grid gi) i) else gi_uvw gi.
