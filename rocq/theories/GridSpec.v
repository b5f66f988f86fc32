(** Specification vocabulary for the grid: positions, boxes of positions, face neighbours.
    Independent of the index arithmetic of the model. *)
From Coq Require Import Arith List.
From Verif Require Import GridModel.

Definition in_grid (g : grid) (c : c3) : Prop := cx c < nx g /\ cy c < ny g /\ cz c < nz g.

Definition in_box (p : part) (c : c3) : Prop :=
  (cx (pfirst p) <= cx c <= cx (psecond p)) /\
  (cy (pfirst p) <= cy c <= cy (psecond p)) /\
  (cz (pfirst p) <= cz c <= cz (psecond p)).

(** a non-empty box of cells that lies in the grid *)
Definition part_ok (g : grid) (p : part) : Prop :=
  cx (pfirst p) <= cx (psecond p) /\ cy (pfirst p) <= cy (psecond p) /\ cz (pfirst p) <= cz (psecond p) /\
  in_grid g (psecond p).

(** [face_nb d c c'] : c' is the cell that shares the face of c in direction d. *)
Definition face_nb (d : dir) (c c' : c3) : Prop :=
  match d with
  | XF => cx c' = cx c + 1 /\ cy c' = cy c /\ cz c' = cz c
  | XB => cx c' + 1 = cx c /\ cy c' = cy c /\ cz c' = cz c
  | YF => cx c' = cx c /\ cy c' = cy c + 1 /\ cz c' = cz c
  | YB => cx c' = cx c /\ cy c' + 1 = cy c /\ cz c' = cz c
  | ZF => cx c' = cx c /\ cy c' = cy c /\ cz c' = cz c + 1
  | ZB => cx c' = cx c /\ cy c' = cy c /\ cz c' + 1 = cz c
  end.

(** the corner at which a traversal in direction d starts *)
Definition first_cell (d : dir) (p : part) : c3 :=
  match d with XF | YF | ZF => pfirst p | XB | YB | ZB => psecond p end.

Definition box_size (p : part) : nat :=
  (cx (psecond p) - cx (pfirst p) + 1) * (cy (psecond p) - cy (pfirst p) + 1) *
  (cz (psecond p) - cz (pfirst p) + 1).
