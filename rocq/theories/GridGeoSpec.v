(** Specification vocabulary for the cell boxes. *)
From Coq Require Import Reals.
From Verif Require Import Geo GridModel GridSpec.

(** the axis along which a direction moves, and whether it moves towards larger coordinates *)
Definition axis_of (d : dir) : axis := match d with XF | XB => AX | YF | YB => AY | ZF | ZB => AZ end.
Definition is_forward (d : dir) : bool := match d with XF | YF | ZF => true | _ => false end.

(** a family of boxes, one per cell of the grid, tiles the box b:
    every box is a proper sub-box of b, every point of b is in one of them, and an interior point of one
    of them belongs to no other. *)
Definition tiles (g : grid) (b : box) (cellb : c3 -> box) : Prop :=
  (forall c, in_grid g c -> box_ok (cellb c)) /\
  (forall c p, in_grid g c -> in_closed (cellb c) p -> in_closed b p) /\
  (forall p, in_closed b p -> exists c, in_grid g c /\ in_closed (cellb c) p) /\
  (forall c c' p, in_grid g c -> in_grid g c' -> in_open (cellb c) p -> in_closed (cellb c') p -> c = c').

(** face neighbours have exactly the same coordinate on the common face and the same other extents,
    and the outermost faces are the faces of b *)
Definition faces_match (g : grid) (b : box) (cellb : c3 -> box) : Prop :=
  (forall c c' d, in_grid g c -> in_grid g c' -> face_nb d c c' -> is_forward d = true ->
     at_ (axis_of d) (upper (cellb c)) = at_ (axis_of d) (lower (cellb c')) /\
     (forall a, a <> axis_of d -> at_ a (lower (cellb c)) = at_ a (lower (cellb c')) /\
                                  at_ a (upper (cellb c)) = at_ a (upper (cellb c')))) /\
  (forall c d, in_grid g c -> (forall c', in_grid g c' -> ~ face_nb d c c') ->
     if is_forward d then at_ (axis_of d) (upper (cellb c)) = at_ (axis_of d) (upper b)
     else at_ (axis_of d) (lower (cellb c)) = at_ (axis_of d) (lower b)).
