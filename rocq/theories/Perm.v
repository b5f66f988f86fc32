(** A tactic for permutations of concatenations. *)
From Coq Require Import List Permutation.
Import ListNotations.

Section P.
Context {X : Type}.
Implicit Types (a b : X) (A B W Z : list X).
Lemma perm_find1 a b W Z : Permutation (a :: W) Z -> Permutation (a :: b :: W) (b :: Z).
Proof. intros H. rewrite perm_swap. apply perm_skip, H. Qed.
Lemma perm_find2 a B W Z : Permutation (a :: W) Z -> Permutation (a :: B ++ W) (B ++ Z).
Proof. intros H. rewrite <- H. apply Permutation_middle. Qed.
Lemma perm_find3 A b W Z : Permutation (A ++ W) Z -> Permutation (A ++ b :: W) (b :: Z).
Proof. intros H. rewrite <- H. symmetry. apply Permutation_middle. Qed.
Lemma perm_find4 A B W Z : Permutation (A ++ W) Z -> Permutation (A ++ B ++ W) (B ++ Z).
Proof. intros H. rewrite <- H. apply Permutation_app_swap_app. Qed.
Lemma perm_nil_r W Z : Permutation (W ++ []) (Z ++ []) -> Permutation W Z.
Proof. rewrite !app_nil_r. auto. Qed.
End P.

Ltac perm_find :=
  first [apply Permutation_refl
        | apply perm_find1; perm_find | apply perm_find2; perm_find
        | apply perm_find3; perm_find | apply perm_find4; perm_find].
Ltac perm_step :=
  match goal with
  | |- Permutation ?x ?x => apply Permutation_refl
  | |- Permutation (?a :: _) _ => refine (perm_trans (l' := a :: _) _ _); [ | perm_find]; apply perm_skip
  | |- Permutation (?a ++ _) _ => refine (perm_trans (l' := a ++ _) _ _); [ | perm_find]; apply Permutation_app_head
  end.
Ltac perm := apply perm_nil_r; repeat first [rewrite <- app_assoc | progress cbn [app]]; repeat perm_step.

Lemma perm_test (X : Type) (a b c d : list X) (x y : X) :
  Permutation (a ++ (x :: b ++ c) ++ y :: d) (d ++ x :: c ++ (a ++ y :: b)).
Proof. perm. Qed.
