(** Specification of orderings and proofs about the point orderings. *)
From Coq Require Import QArith Qabs Bool Lqa.
From Verif Require Import PointOrderModel.
Local Open Scope Q_scope.

(** A comparison function that std::map and std::set accept, on the elements of [S]. *)
Record strict_weak_order {P : Type} (S : P -> Prop) (lt : P -> P -> bool) : Prop := {
  swo_irreflexive : forall a, S a -> lt a a = false;
  swo_transitive : forall a b c, S a -> S b -> S c -> lt a b = true -> lt b c = true -> lt a c = true;
  swo_incomparable : forall a b c, S a -> S b -> S c ->
    lt a b = false -> lt b a = false -> lt b c = false -> lt c b = false -> lt a c = false /\ lt c a = false
}.

(** Two numbers that are equal or further apart than [tol]. *)
Definition apart (tol x y : Q) : Prop := x == y \/ tol < Qabs (x - y).
Definition apart3 (tol : Q) (S : qpt -> Prop) : Prop := forall a b, S a -> S b ->
  apart tol (qx a) (qx b) /\ apart tol (qy a) (qy b) /\ apart tol (qz a) (qz b).
Definition apart2 (tol : Q) (S : qpt2 -> Prop) : Prop := forall a b, S a -> S b ->
  apart tol (q0 a) (q0 b) /\ apart tol (q1 a) (q1 b).
Definition same3 (a b : qpt) : Prop := qx a == qx b /\ qy a == qy b /\ qz a == qz b.
Definition same2 (a b : qpt2) : Prop := q0 a == q0 b /\ q1 a == q1 b.
(** Lexicographic order of the coordinates. *)
Definition lex3 (a b : qpt) : Prop := qx a < qx b \/ qx a == qx b /\ (qy a < qy b \/ qy a == qy b /\ qz a < qz b).
Definition lex2 (a b : qpt2) : Prop := q0 a < q0 b \/ q0 a == q0 b /\ q1 a < q1 b.

Lemma qltb_iff a b : qltb a b = true <-> a < b.
Proof.
  unfold qltb. rewrite negb_true_iff. split; intros H.
  - destruct (Qlt_le_dec a b) as [L | L]; [exact L|]. apply Qle_bool_iff in L. congruence.
  - destruct (Qle_bool b a) eqn:E; [|reflexivity]. apply Qle_bool_iff in E. lra.
Qed.
Lemma qltb_false a b : qltb a b = false <-> b <= a.
Proof. unfold qltb. rewrite negb_false_iff. apply Qle_bool_iff. Qed.
Lemma qleb_false a b : Qle_bool a b = false <-> b < a.
Proof.
  split; intros H.
  - destruct (Qlt_le_dec b a) as [L | L]; [exact L|]. apply Qle_bool_iff in L. congruence.
  - destruct (Qle_bool a b) eqn:E; [|reflexivity]. apply Qle_bool_iff in E. lra.
Qed.

Lemma near_iff tol x y : 0 < tol -> apart tol x y -> (qltb (Qabs (x - y)) tol = true <-> x == y).
Proof.
  intros T A. rewrite qltb_iff. split; intros H.
  - destruct A as [A | A]; [exact A | lra].
  - assert (E : x - y == 0) by lra. rewrite E. exact T.
Qed.
Lemma far_cases tol x y : apart tol x y -> x == y \/ x - y < - tol \/ tol < x - y.
Proof.
  intros [A | A]; [left; exact A|right].
  revert A. apply Qabs_case; intros; [right | left]; lra.
Qed.

Ltac near T A :=
  let E := fresh "E" in let H := fresh "H" in
  match goal with |- context [qltb (Qabs (?x - ?y)) ?t] =>
    destruct (qltb (Qabs (x - y)) t) eqn:E;
    [apply (near_iff t x y T A) in E | assert (H : ~ x == y) by (intros H; apply (near_iff t x y T A) in H; congruence)]
  end.

Lemma less3_lex tol a b : 0 < tol -> apart tol (qx a) (qx b) -> apart tol (qy a) (qy b) -> apart tol (qz a) (qz b) ->
  (less3 tol a b = true <-> lex3 a b).
Proof.
  intros T X Y Z. unfold less3, lex3. near T X.
  - near T Y.
    + rewrite qltb_iff. destruct (far_cases _ _ _ Z) as [C | C]; lra.
    + rewrite qltb_iff. destruct (far_cases _ _ _ Y) as [C | C]; lra.
  - rewrite qltb_iff. destruct (far_cases _ _ _ X) as [C | C]; lra.
Qed.
Lemma less2_lex tol a b : 0 < tol -> apart tol (q0 a) (q0 b) -> apart tol (q1 a) (q1 b) ->
  (less2 tol a b = true <-> lex2 a b).
Proof.
  intros T X Y. unfold less2, lex2. near T X.
  - rewrite qltb_iff. destruct (far_cases _ _ _ Y) as [C | C]; lra.
  - rewrite Qle_bool_iff. destruct (far_cases _ _ _ X) as [C | C]; lra.
Qed.

Lemma lex3_trans a b c : lex3 a b -> lex3 b c -> lex3 a c.
Proof. unfold lex3. lra. Qed.
Lemma lex2_trans a b c : lex2 a b -> lex2 b c -> lex2 a c.
Proof. unfold lex2. lra. Qed.
Lemma lex3_total a b : lex3 a b \/ lex3 b a \/ same3 a b.
Proof.
  unfold lex3, same3. destruct (Q_dec (qx a) (qx b)) as [[H | H] | H]; [lra | lra|].
  destruct (Q_dec (qy a) (qy b)) as [[H1 | H1] | H1]; [lra | lra|].
  destruct (Q_dec (qz a) (qz b)) as [[H2 | H2] | H2]; lra.
Qed.
Lemma lex2_total a b : lex2 a b \/ lex2 b a \/ same2 a b.
Proof.
  unfold lex2, same2. destruct (Q_dec (q0 a) (q0 b)) as [[H | H] | H]; [lra | lra|].
  destruct (Q_dec (q1 a) (q1 b)) as [[H1 | H1] | H1]; lra.
Qed.

(** A decidable order that agrees with a strict total order up to an equivalence is a strict weak order. *)
Lemma swo_of_lex {P} (S : P -> Prop) (lt : P -> P -> bool) (lex same : P -> P -> Prop) :
  (forall a b, S a -> S b -> (lt a b = true <-> lex a b)) ->
  (forall a b c, lex a b -> lex b c -> lex a c) ->
  (forall a, ~ lex a a) ->
  (forall a b, lex a b \/ lex b a \/ same a b) ->
  (forall a b c, same a b -> same b c -> same a c) ->
  (forall a b, same a b -> ~ lex a b /\ ~ lex b a) ->
  strict_weak_order S lt /\ (forall a b, S a -> S b -> (lt a b = false /\ lt b a = false <-> same a b)).
Proof.
  intros L T I O ST SN.
  assert (F : forall a b, S a -> S b -> (lt a b = false <-> ~ lex a b)).
  { intros a b Sa Sb. rewrite <- (L a b Sa Sb). destruct (lt a b); split; congruence. }
  assert (Q : forall a b, S a -> S b -> (lt a b = false /\ lt b a = false <-> same a b)).
  { intros a b Sa Sb. rewrite (F a b Sa Sb), (F b a Sb Sa). split; [|apply SN].
    intros [H1 H2]. destruct (O a b) as [C | [C | C]]; tauto. }
  split; [constructor|exact Q].
  - intros a Sa. apply F; auto.
  - intros a b c Sa Sb Sc H1 H2. apply L; auto. apply L in H1, H2; auto. eauto.
  - intros a b c Sa Sb Sc H1 H2 H3 H4. apply Q; auto. apply (ST a b c); apply Q; auto.
Qed.

Lemma less3_ok tol S : 0 < tol -> apart3 tol S ->
  strict_weak_order S (less3 tol) /\
  (forall a b, S a -> S b -> (less3 tol a b = true <-> lex3 a b)) /\
  (forall a b, S a -> S b -> (less3 tol a b = false /\ less3 tol b a = false <-> same3 a b)).
Proof.
  intros T A. assert (L : forall a b, S a -> S b -> (less3 tol a b = true <-> lex3 a b)).
  { intros a b Sa Sb. destruct (A a b Sa Sb) as [X [Y Z]]. apply less3_lex; auto. }
  destruct (swo_of_lex S (less3 tol) lex3 same3 L lex3_trans) as [H1 H2].
  - intros a. unfold lex3. lra.
  - exact lex3_total.
  - intros a b c. unfold same3. lra.
  - intros a b. unfold same3, lex3. lra.
  - auto.
Qed.
Lemma less2_ok tol S : 0 < tol -> apart2 tol S ->
  strict_weak_order S (less2 tol) /\
  (forall a b, S a -> S b -> (less2 tol a b = true <-> lex2 a b)) /\
  (forall a b, S a -> S b -> (less2 tol a b = false /\ less2 tol b a = false <-> same2 a b)).
Proof.
  intros T A. assert (L : forall a b, S a -> S b -> (less2 tol a b = true <-> lex2 a b)).
  { intros a b Sa Sb. destruct (A a b Sa Sb) as [X Y]. apply less2_lex; auto. }
  destruct (swo_of_lex S (less2 tol) lex2 same2 L lex2_trans) as [H1 H2].
  - intros a. unfold lex2. lra.
  - exact lex2_total.
  - intros a b c. unfold same2. lra.
  - intros a b. unfold same2, lex2. lra.
  - auto.
Qed.

(** Both orders are irreflexive and asymmetric on all points. *)
Lemma abs_sym x y : Qabs (x - y) == Qabs (y - x).
Proof. rewrite <- Qabs_opp. apply Qabs_wd. lra. Qed.
Lemma near_sym tol x y : qltb (Qabs (x - y)) tol = qltb (Qabs (y - x)) tol.
Proof.
  apply eq_true_iff_eq. rewrite !qltb_iff, (abs_sym x y). reflexivity.
Qed.
Lemma less3_asym tol a b : 0 < tol -> less3 tol a b = true -> less3 tol b a = false.
Proof.
  intros T. unfold less3. rewrite (near_sym tol (qx b)), (near_sym tol (qy b)).
  destruct (qltb (Qabs (qx a - qx b)) tol); [destruct (qltb (Qabs (qy a - qy b)) tol)|];
    rewrite qltb_iff, qltb_false; lra.
Qed.
Lemma less2_asym tol a b : 0 < tol -> less2 tol a b = true -> less2 tol b a = false.
Proof.
  intros T. unfold less2. rewrite (near_sym tol (q0 b)).
  destruct (qltb (Qabs (q0 a - q0 b)) tol).
  - rewrite qltb_iff, qltb_false; lra.
  - rewrite Qle_bool_iff, qleb_false; lra.
Qed.

(** Cycles at the scale of the tolerance. *)
Lemma abs_lt x t : - t < x -> x < t -> qltb (Qabs x) t = true.
Proof. intros. apply qltb_iff. apply Qabs_case; lra. Qed.
Lemma abs_ge x t : x <= - t \/ t <= x -> 0 < t -> qltb (Qabs x) t = false.
Proof. intros. apply qltb_false. apply Qabs_case; lra. Qed.
Lemma less3_cycle tol : 0 < tol -> exists a b c,
  less3 tol a b = true /\ less3 tol b c = true /\ less3 tol c a = true.
Proof.
  intros T. exists (QPt ((3#2) * tol) 0 0), (QPt ((3#4) * tol) (2 * tol) 0), (QPt 0 (4 * tol) 0).
  unfold less3. cbn [qx qy qz]. repeat split.
  - rewrite abs_lt by lra. rewrite abs_ge by lra. apply qltb_iff. lra.
  - rewrite abs_lt by lra. rewrite abs_ge by lra. apply qltb_iff. lra.
  - rewrite abs_ge by lra. apply qltb_iff. lra.
Qed.
Lemma less2_cycle tol : 0 < tol -> exists a b c,
  less2 tol a b = true /\ less2 tol b c = true /\ less2 tol c a = true.
Proof.
  intros T. exists (QPt2 ((3#2) * tol) 0), (QPt2 ((3#4) * tol) (2 * tol)), (QPt2 0 (4 * tol)).
  unfold less2. cbn [q0 q1]. repeat split.
  - rewrite abs_lt by lra. apply qltb_iff. lra.
  - rewrite abs_lt by lra. apply qltb_iff. lra.
  - rewrite abs_ge by lra. apply Qle_bool_iff. lra.
Qed.
(** Points whose x differs by exactly the tolerance are never distinguished, whatever y and z are. *)
Lemma less3_blind tol y z y' z' : 0 < tol ->
  less3 tol (QPt 0 y z) (QPt tol y' z') = false /\ less3 tol (QPt tol y' z') (QPt 0 y z) = false.
Proof.
  intros T. unfold less3. cbn [qx qy qz]. rewrite !abs_ge by lra. split; apply qltb_false; lra.
Qed.
