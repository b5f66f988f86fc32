(** Property C18: the one-dimensional generalized Gauss rules, for every number of knot spans. *)
From Coq Require Import Arith List QArith Qabs Lia Sorting.Sorted.
From Verif Require Import Ggq1dModel Ggq1dSpec Ggq1dProofs Ggq1dAll.
Import ListNotations.
Local Open Scope nat_scope.

(** the target space of the method for basis functions of degree d: (degree, continuity) *)
Definition target (d : nat) (meth : ggq) : nat * nat :=
  match meth with Optimal => (2 * d, d - 2) | Reduced1 => (2 * d - 1, d - 2) | Reduced2 => (2 * d - 2, d - 2) end.
(** the documented number of points: half the dimension of the target space, rounded up *)
Definition documented_points (d e : nat) (meth : ggq) : nat :=
  let '(p, r) := target d meth in (spline_dim p r e + 1) / 2.

Lemma documented d e meth : points_of d e meth = documented_points d e meth.
Proof.
  unfold points_of, documented_points, target. destruct meth; unfold space_dimension, ceil_half, num_dofs, spline_dim; f_equal; nia.
Qed.

Lemma ggq_rules_well_formed d e meth : 2 <= d <= 4 -> 1 <= e ->
  exists l, get_ggq d e meth = Some l /\ rule_ok (documented_points d e meth) l.
Proof. intros Hd He. rewrite <- documented. apply all_rules; assumption. Qed.
Theorem C18_ggq_rules_well_formed : forall d e meth, 2 <= d <= 4 -> 1 <= e ->
  exists l, get_ggq d e meth = Some l /\ rule_ok (documented_points d e meth) l.
Proof. exact ggq_rules_well_formed. Qed.
Print Assumptions C18_ggq_rules_well_formed.

(** instance: seven knot spans, quadratic, reduced1: constructed from the base points *)
Example C18_example : exists l, get_ggq 2 7 Reduced1 = Some l /\ length l = 11 /\ rule_ok 11 l.
Proof.
  destruct (C18_ggq_rules_well_formed 2 7 Reduced1 ltac:(lia) ltac:(lia)) as (l & El & H). exists l.
  change (documented_points 2 7 Reduced1) with 11 in H. split; [assumption|]. split; [apply (ro_length _ _ H)|assumption].
Qed.
