(** Points and axis-aligned boxes over the reals.
    Models: PointType / Vector3d (std::array<double,3>) and BoundingBox {lower, upper},
    /repo/queso/includes/core_definitions.hpp:34-46. Simplification: double is idealised as R. *)
From Coq Require Import Reals List.
Import ListNotations.
Local Open Scope R_scope.

(** PointType, includes/core_definitions.hpp:34. *)
Record pt := Pt { px : R; py : R; pz : R }.
(** BoundingBox, includes/core_definitions.hpp:41-44; MakeBox, includes/define.hpp. *)
Record box := Box { lower : pt; upper : pt }.

(** array index 0,1,2 *)
Inductive axis := AX | AY | AZ.
(** operator[] of PointType, includes/core_definitions.hpp:34. *)
Definition at_ (a : axis) (p : pt) : R := match a with AX => px p | AY => py p | AZ => pz p end.

(** Specification vocabulary. *)
Definition box_ok (b : box) : Prop := forall a, at_ a (lower b) < at_ a (upper b).
Definition in_closed (b : box) (p : pt) : Prop := forall a, at_ a (lower b) <= at_ a p <= at_ a (upper b).
Definition in_open (b : box) (p : pt) : Prop := forall a, at_ a (lower b) < at_ a p < at_ a (upper b).
Definition box_volume (b : box) : R :=
  (px (upper b) - px (lower b)) * (py (upper b) - py (lower b)) * (pz (upper b) - pz (lower b)).

Lemma pt_eq p q : (forall a, at_ a p = at_ a q) -> p = q.
Proof.
  intros H. pose proof (H AX) as H1. pose proof (H AY) as H2. pose proof (H AZ) as H3.
  destruct p, q; simpl in *; subst; reflexivity.
Qed.
