(** Specification of the search for the domain of a trimmed element: a sequence of attempts and the choice among them. *)
From Coq Require Import Reals List Arith Bool.
From Verif Require Import Geo MappingModel MeshModel MeshGeoModel ClipModel TrimSearchModel.
Import ListNotations.
Local Open Scope R_scope.

(** An attempt: the box, the orientation of the faces and, if the geometry meets the box, the domain with its volume and the
    estimate of its quality (0: closed). *)
Record attempt := Attempt { a_lo : pt; a_hi : pt; a_switch : bool; a_domain : option (domain * R * R) }.
Section Spec.
(** The part of the geometry in a box, and the domain made from it. *)
Variable clip : pt -> pt -> option cmesh.
Variable build : cmesh -> pt -> pt -> bool -> option domain.
Definition tried (a : attempt) : Prop := exists m, clip (a_lo a) (a_hi a) = Some m /\
  match a_domain a with
  | None => num_triangles (cm_mesh m) = 0%nat
  | Some (d, v, q) => (0 < num_triangles (cm_mesh m))%nat /\ build m (a_lo a) (a_hi a) (a_switch a) = Some d /\
      mesh_volume (dm_closed d) = Some v /\ estimate_quality (dm_closed d) = Some q
  end.
(** The next attempt has the other orientation. After an attempt with switched orientation that gave a domain, each side of the box
    is moved outwards by 1 to 100 times [step]; otherwise the box is the same. *)
Definition follows (step : R) (a b : attempt) : Prop :=
  a_switch b = negb (a_switch a) /\
  match a_switch a, a_domain a with
  | true, Some _ => forall i, step <= at_ i (a_lo a) - at_ i (a_lo b) <= 100 * step /\ step <= at_ i (a_hi b) - at_ i (a_hi a) <= 100 * step
  | _, _ => a_lo b = a_lo a /\ a_hi b = a_hi a
  end.
Fixpoint linked (step : R) (l : list attempt) : Prop :=
  match l with a :: ((b :: _) as l') => follows step a b /\ linked step l' | _ => True end.
Definition starts (lo hi : pt) (switch : bool) (l : list attempt) : Prop :=
  match l with [] => True | a :: _ => a_lo a = lo /\ a_hi a = hi /\ a_switch a = switch end.
(** The attempts for a cell. *)
Definition attempts (step : R) (lo hi : pt) (l : list attempt) : Prop := starts lo hi false l /\ linked step l /\ Forall tried l.
End Spec.

(** The mesh of the attempt is closed up to a relative error of 1e-5. *)
Definition good (a : attempt) : Prop := exists d v q, a_domain a = Some (d, v, q) /\ q < / 10 ^ 5.
(** The domain can be used: enough volume, and an error below one half. *)
Definition usable (ratio cell : R) (a : attempt) (d : domain) (q : R) : Prop :=
  exists v, a_domain a = Some (d, v, q) /\ ratio < v / cell /\ q < 1 / 2.
(** The first attempt with the smallest error among those that can be used. *)
Definition best_of (ratio cell : R) (l : list attempt) (d : domain) (q : R) : Prop :=
  exists l1 a l2, l = l1 ++ a :: l2 /\ usable ratio cell a d q /\
    (forall b d' q', In b l1 -> usable ratio cell b d' q' -> q < q') /\ (forall b d' q', In b l2 -> usable ratio cell b d' q' -> q <= q').
(** The choice among the attempts: the first good one decides; if there is none among 28 attempts, the best one is taken, but
    not if its error is above 1e-2 and such domains are to be neglected. *)
Definition chosen (ratio cell : R) (neglect : bool) (l : list attempt) (r : option domain) : Prop :=
  (exists l0 a d v q, l = l0 ++ [a] /\ (length l <= 28)%nat /\ Forall (fun b => ~ good b) l0 /\ a_domain a = Some (d, v, q) /\ q < / 10 ^ 5 /\
     (ratio < v / cell -> r = Some d) /\ (v / cell <= ratio -> r = None)) \/
  (length l = 28%nat /\ Forall (fun b => ~ good b) l /\
     ((exists d q, best_of ratio cell l d q /\ (neglect = false \/ q <= / 10 ^ 2 -> r = Some d) /\ (neglect = true -> / 10 ^ 2 < q -> r = None)) \/
      ((forall a d q, In a l -> ~ usable ratio cell a d q) /\ r = None))).
