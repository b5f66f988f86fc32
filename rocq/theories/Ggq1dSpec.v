(** Specification vocabulary for the one-dimensional rules. *)
From Coq Require Import Arith List QArith Qabs Sorting.Sorted.
Import ListNotations.
Local Open Scope Q_scope.

(** dimension of the spline space of degree p and continuity r on e knot spans *)
Definition spline_dim (p r e : nat) : nat := ((p + 1) + (e - 1) * (p - r))%nat.
(** tolerance for the rounding of the tables *)
Definition tol : Q := 1 # 100000000000000.

Definition wsum (l : list (Q * Q)) : Q := fold_right (fun q acc => snd q + acc) 0 l.

(** m points in increasing order inside (0,1), positive weights that sum to one, symmetric about 1/2
    (the last two up to the tolerance) *)
Record rule_ok (m : nat) (l : list (Q * Q)) : Prop := {
  ro_length : length l = m;
  ro_sorted : StronglySorted (fun a b => fst a < fst b) l;
  ro_range : Forall (fun q => 0 < fst q /\ fst q < 1) l;
  ro_positive : Forall (fun q => 0 < snd q) l;
  ro_sum : Qabs (wsum l - 1) <= tol;
  ro_symmetric : Forall2 (fun a b => Qabs (fst a + fst b - 1) <= tol /\ Qabs (snd a - snd b) <= tol) l (rev l)
}.
