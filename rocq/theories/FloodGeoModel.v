(** Model of the geometric tests that the flood fill uses to classify the cells of the grid (see FloodModel, where they are
    parameters).  Source: /repo/queso/embedding/flood_fill.cpp and brep_operator.cpp.
    Simplification: double is R; None is an exception or undefined behaviour. *)
From Coq Require Import Reals List Arith Bool.
From Verif Require Import Geo GridModel GridGeoModel GridStoreModel MappingModel TrimmedQuadModel MeshModel MeshGeoModel ClipModel SearchModel GeoQueryModel TrimSearchModel FloodModel.
Import ListNotations.
Local Open Scope R_scope.

Section FloodGeo.
(** mTriangleMesh and mGeometryQuery of the BRepOperator; the memory that a search tree does not initialise, see SearchModel. *)
Variable src : mesh pt.
Variable g : gquery.
Variable junk : nat -> node RA.
Variable gi : indexer.

(** mDelta, flood_fill.h:72-74, is [delta] of GridGeoModel; RelativeSnapTolerance(mDelta, SNAPTOL), core_definitions.hpp:77-79. *)
Definition cell_tol : R :=
  let d := delta (gi_grid gi) (gi_xyz gi) in Rmax (Rmax (d AX) (Rmax (d AY) (d AZ)) * / 10 ^ 12) (/ 10 ^ 12).
(** GetOffsets, flood_fill.cpp:390-409. *)
Definition offsets (d : dir) : pt * pt :=
  let t := 10 * cell_tol in
  match d with
  | XF => (Pt (- t) 0 0, Pt 0 0 0)
  | XB => (Pt 0 0 0, Pt t 0 0)
  | YF => (Pt 0 (- t) 0, Pt 0 0 0)
  | YB => (Pt 0 0 0, Pt 0 t 0)
  | ZF => (Pt 0 0 (- t), Pt 0 0 0)
  | ZB => (Pt 0 0 0, Pt 0 0 t)
  end.
(** The box of cell n, enlarged towards the cell from which it is reached, flood_fill.cpp:196-197 and 382. *)
Definition perturbed (n : nat) (d : dir) : box :=
  let b := box_xyz gi n in Box (vadd (lower b) (fst (offsets d))) (vadd (upper b) (snd (offsets d))).
(** IsTrimmed, brep_operator.cpp:72-74, with the default tolerance SNAPTOL, brep_operator.h:126. *)
Definition is_trimmed (b : box) : option bool := do_intersect g (lower b) (upper b) (/ 10 ^ 12).
(** flood_fill.cpp:151-153 and 209. *)
Definition cell_cut (i : nat) : option bool := is_trimmed (box_xyz gi i).
(** flood_fill.cpp:196-197. *)
Definition face_cut (n : nat) (d : dir) : option bool := is_trimmed (perturbed n d).
(** The triangles of clipped_mesh, brep_operator.cpp:80. *)
Definition section_of (b : box) : option (list (tri pt)) := and_then (clip_cell src g (lower b) (upper b)) (fun m => visit (cm_mesh m)).
(** center_box, flood_fill.cpp:380. *)
Definition centre_of (i : nat) : pt := vscale (1/2) (vadd (lower (box_xyz gi i)) (upper (box_xyz gi i))).
(** GetIsInsideCount, flood_fill.cpp:377-387, and OnBoundedSideOfClippedSection, brep_operator.cpp:77-125. *)
Definition face_vote (i n : nat) (d : dir) : option bool :=
  let b := perturbed n d in and_then (section_of b) (fun s => on_bounded_side junk s (lower b) (upper b) (centre_of i)).

(** ClassifyElements, flood_fill.cpp:37-118: the flood fill with these tests.  An undefined test is replaced by false; that none is
    undefined is proved separately. *)
Definition truth (o : option bool) : bool := match o with Some b => b | None => false end.
Definition cuts (i : nat) : bool := truth (cell_cut i).
Definition cuts_face (n : nat) (d : dir) : bool := truth (face_cut n d).
Definition votes (i n : nat) (d : dir) : bool := truth (face_vote i n d).
Definition classified (threads : nat) (st : nat -> istate) : Prop := classify_rel (gi_grid gi) cuts cuts_face votes threads (Some st).
End FloodGeo.
