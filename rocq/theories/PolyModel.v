(** Model of the Legendre polynomials and their antiderivatives.
    Source: /repo/queso/utilities/polynomial_utilities.hpp. Simplification: double is R. *)
From Coq Require Import Reals.
Local Open Scope R_scope.

(** power, polynomial_utilities.hpp:29-36: result * x, p times. *)
Fixpoint power_loop (p : nat) (result x : R) : R := match p with O => result | S p' => power_loop p' (result * x) x end.
Definition power (x : R) (p : nat) : R := power_loop p 1 x.

(** f_x, polynomial_utilities.hpp:39-86. *)
Definition f_x (x : R) (order : nat) (a b : R) : R :=
  let t := (2 * x - a - b) / (b - a) in
  match order with
  | 0%nat => 1
  | 1%nat => t
  | 2%nat => 1 / 2 * (3 * power t 2 - 1)
  | 3%nat => 1 / 2 * (5 * power t 3 - 3 * t)
  | 4%nat => 1 / 8 * (35 * power t 4 - 30 * power t 2 + 3)
  | 5%nat => 1 / 8 * (63 * power t 5 - 70 * power t 3 + 15 * t)
  | 6%nat => 1 / 16 * (231 * power t 6 - 315 * power t 4 + 105 * power t 2 - 5)
  | 7%nat => 1 / 16 * (429 * power t 7 - 693 * power t 5 + 315 * power t 3 - 35 * t)
  | 8%nat => 1 / 128 * (6435 * power t 8 - 12012 * power t 6 + 6930 * power t 4 - 1260 * power t 2 + 35)
  | _ => 0
  end.

(** f_x_int, polynomial_utilities.hpp:90-131. *)
Definition f_x_int (x : R) (order : nat) (a b : R) : R :=
  let y := a + b - 2 * x in
  match order with
  | 0%nat => x
  | 1%nat => - power y 2 / (4 * (a - b))
  | 2%nat => - x / 2 - power y 3 / (4 * power (a - b) 2)
  | 3%nat => (3 * power y 2) / (8 * (a - b)) - (5 * power y 4) / (16 * power (a - b) 3)
  | 4%nat => (3 * x) / 8 + (5 * power y 3) / (8 * power (a - b) 2) - (7 * power y 5) / (16 * power (a - b) 4)
  | 5%nat => (35 * power y 4) / (32 * power (a - b) 3) - (15 * power y 2) / (32 * (a - b)) - (21 * power y 6) / (32 * power (a - b) 5)
  | 6%nat => (63 * power y 5) / (32 * power (a - b) 4) - (35 * power y 3) / (32 * power (a - b) 2) - (5 * x) / 16 - (33 * power y 7) / (32 * power (a - b) 6)
  | 7%nat => (35 * power y 2) / (64 * (a - b)) - (315 * power y 4) / (128 * power (a - b) 3) + (231 * power y 6) / (64 * power (a - b) 5) - (429 * power y 8) / (256 * power (a - b) 7)
  | 8%nat => (35 * x) / 128 + (105 * power y 3) / (64 * power (a - b) 2) - (693 * power y 5) / (128 * power (a - b) 4) + (429 * power y 7) / (64 * power (a - b) 6) - (715 * power y 9) / (256 * power (a - b) 8)
  | _ => 0
  end.
