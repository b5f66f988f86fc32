(** Specification: spline functions on uniform knot spans and quadrature sums. Nothing here refers to the model. *)
From Coq Require Import Arith Reals List.
Import ListNotations.
Local Open Scope R_scope.

(** polynomials in one variable: coefficients, constant term first *)
Definition value (c : list R) (t : R) : R := fold_right (fun a v => a + t * v) 0 c.
Fixpoint weighted (k : nat) (c : list R) : list R := match c with [] => [] | a :: c => INR k * a :: weighted (S k) c end.
Definition derivative (c : list R) : list R := match c with [] => [] | _ :: c => weighted 1 c end.
Fixpoint derivatives (k : nat) (c : list R) : list R := match k with O => c | S k => derivatives k (derivative c) end.
(** sum of the absolute values of the coefficients: bounds the polynomial on [0,1] *)
Definition size (c : list R) : R := fold_right (fun a v => Rabs a + v) 0 c.
Fixpoint total (f : nat -> R) (n : nat) : R := match n with O => 0 | S n => total f n + f n end.

(** pieces of a spline of degree p with r continuous derivatives over e knot spans; piece i in the local coordinate of span i *)
Definition spline_pieces (p r e : nat) (P : nat -> list R) : Prop :=
  (forall i, (i < e)%nat -> (length (P i) <= p + 1)%nat) /\
  forall i k, (S i < e)%nat -> (k <= r)%nat -> value (derivatives k (P i)) 1 = value (derivatives k (P (S i))) 0.
(** the function on [0,1] with these pieces *)
Definition has_pieces (e : nat) (P : nat -> list R) (f : R -> R) : Prop :=
  forall i x, (i < e)%nat -> INR i / INR e <= x <= INR (S i) / INR e -> f x = value (P i) (INR e * x - INR i).
(** F is an antiderivative of f on [0,1] *)
Definition antiderivative (F f : R -> R) : Prop :=
  (forall x, 0 <= x <= 1 -> continuity_pt F x) /\ forall x, 0 < x < 1 -> derivable_pt_lim F x (f x).
(** quadrature sum *)
Definition quadrature (l : list (R * R)) (f : R -> R) : R := fold_right (fun q s => snd q * f (fst q) + s) 0 l.
