(** Property C44: Legendre polynomials and their antiderivatives. *)
From Coq Require Import Arith Reals QArith Qreals Qround List Bool Lra Lia.
From Verif Require Import PolyModel.
Import ListNotations.
Local Open Scope R_scope.

(** ** specification: the Legendre polynomials by Bonnet's recursion (n+1) P(n+1) = (2n+1) t P(n) - n P(n-1) *)
Fixpoint legendre2 (n : nat) (t : R) : R * R := (* (P n, P (n+1)) *)
  match n with
  | O => (1, t)
  | S n' => let '(p, q) := legendre2 n' t in (q, ((2 * INR n + 1) * t * q - INR n * p) / (INR n + 1))
  end.
Definition legendre (n : nat) (t : R) : R := fst (legendre2 n t).
(** the affine map of [a,b] onto [-1,1] *)
Definition local (a b x : R) : R := (2 * x - a - b) / (b - a).

(** ** polynomials with rational coefficients *)
Definition qpoly := list Q.
Fixpoint ev (l : qpoly) (t : R) : R := match l with [] => 0 | c :: l => Q2R c + t * ev l t end.
Fixpoint padd (a b : qpoly) : qpoly :=
  match a, b with [], b => b | a, [] => a | x :: a, y :: b => Qred (x + y) :: padd a b end.
Definition pscale (c : Q) (l : qpoly) : qpoly := map (fun x => Qred (c * x)) l.
Fixpoint pmul (a b : qpoly) : qpoly := match a with [] => [] | x :: a => padd (pscale x b) (0%Q :: pmul a b) end.
Fixpoint pint_from (n : Z) (l : qpoly) : qpoly := match l with [] => [] | c :: l => Qred (c / inject_Z n) :: pint_from (n + 1) l end.
Definition pint (l : qpoly) : qpoly := 0%Q :: pint_from 1 l.
Fixpoint qev (l : qpoly) (t : Q) : Q := match l with [] => 0 | c :: l => Qred (c + t * qev l t) end.

Lemma Q2R_red q : Q2R (Qred q) = Q2R q.
Proof. apply Qeq_eqR, Qred_correct. Qed.
Lemma Q2R_0 : Q2R 0 = 0.
Proof. unfold Q2R. simpl. lra. Qed.
Lemma ev_padd a : forall b t, ev (padd a b) t = ev a t + ev b t.
Proof.
  induction a as [|x a IH]; intros [|y b] t; cbn [padd ev]; try ring. rewrite Q2R_red, Q2R_plus, IH. ring.
Qed.
Lemma ev_pscale c l t : ev (pscale c l) t = Q2R c * ev l t.
Proof. induction l as [|x l IH]; cbn [pscale map ev]; [ring|]. unfold pscale in IH. rewrite IH, Q2R_red, Q2R_mult. ring. Qed.
Lemma ev_pmul a : forall b t, ev (pmul a b) t = ev a t * ev b t.
Proof.
  induction a as [|x a IH]; intros b t; cbn [pmul ev]; [ring|]. rewrite ev_padd, ev_pscale. cbn [ev]. rewrite IH, Q2R_0. ring.
Qed.
Lemma qev_ev l t : ev l (Q2R t) = Q2R (qev l t).
Proof. induction l as [|c l IH]; cbn [ev qev]; [symmetry; apply Q2R_0|]. rewrite Q2R_red, Q2R_plus, Q2R_mult, IH. reflexivity. Qed.

(** t^(n-1) * ev (pint_from n l) has derivative t^(n-1) * ... : done through the derivative of t * g *)
Lemma pint_from_deriv l : forall n t, (0 < n)%nat ->
  derivable_pt_lim (fun t => t ^ n * ev (pint_from (Z.of_nat n) l) t) t (t ^ (n - 1) * ev l t).
Proof.
  induction l as [|c l IH]; intros n t Hn.
  - replace (t ^ (n - 1) * ev [] t) with 0 by (simpl; ring).
    intros eps Heps. exists (mkposreal 1 Rlt_0_1). intros h _ _. simpl. replace ((_ - _) / h - 0) with 0 by (unfold Rdiv; ring). rewrite Rabs_R0. assumption.
  - specialize (IH (S n) t ltac:(lia)). replace (S n - 1)%nat with n in IH by lia.
    assert (Hz : Q2R (inject_Z (Z.of_nat n)) = INR n) by (unfold Q2R, inject_Z; cbn [Qnum Qden]; rewrite INR_IZR_INZ; field).
    assert (Hn0 : INR n <> 0) by (apply not_0_INR; lia).
    assert (Hq : ~ (inject_Z (Z.of_nat n) == 0)%Q).
    { intros E. apply Qeq_eqR in E. rewrite Hz, Q2R_0 in E. contradiction. }
    assert (D : derivable_pt_lim (fun t => Q2R c / INR n * t ^ n + t ^ S n * ev (pint_from (Z.of_nat (S n)) l) t) t
                  (Q2R c / INR n * (INR n * t ^ pred n) + t ^ n * ev l t)).
    { apply (derivable_pt_lim_plus (fun t => Q2R c / INR n * t ^ n) (fun t => t ^ S n * ev (pint_from (Z.of_nat (S n)) l) t)); [|exact IH].
      apply (derivable_pt_lim_scal (fun t => t ^ n)). apply derivable_pt_lim_pow. }
    replace (t ^ (n - 1) * ev (c :: l) t) with (Q2R c / INR n * (INR n * t ^ pred n) + t ^ n * ev l t).
    2:{ cbn [ev]. replace (pred n) with (n - 1)%nat by lia. destruct n as [|n]; [lia|]. replace (S n - 1)%nat with n by lia. cbn [pow]. field. assumption. }
    intros eps Heps. destruct (D eps Heps) as (d & Hd). exists d. intros h Hh1 Hh2. specialize (Hd h Hh1 Hh2).
    assert (E : forall u, u ^ n * ev (pint_from (Z.of_nat n) (c :: l)) u = Q2R c / INR n * u ^ n + u ^ S n * ev (pint_from (Z.of_nat (S n)) l) u).
    { intros u. cbn [pint_from ev]. rewrite Q2R_red, Q2R_div, Hz by assumption. replace (Z.of_nat n + 1)%Z with (Z.of_nat (S n)) by lia. cbn [pow]. field. assumption. }
    rewrite !E. exact Hd.
Qed.
Lemma pint_deriv l t : derivable_pt_lim (ev (pint l)) t (ev l t).
Proof.
  pose proof (pint_from_deriv l 1 t ltac:(lia)) as H. simpl (1 - 1)%nat in H. replace (t ^ 0 * ev l t) with (ev l t) in H by (simpl; ring).
  intros eps Heps. destruct (H eps Heps) as (d & Hd). exists d. intros h Hh1 Hh2. specialize (Hd h Hh1 Hh2).
  assert (E : forall u, ev (pint l) u = u ^ 1 * ev (pint_from (Z.of_nat 1) l) u) by (intros u; unfold pint; cbn [ev]; rewrite Q2R_0; simpl; ring).
  rewrite !E. exact Hd.
Qed.

(** ** coefficients *)
Definition coef (n : nat) : qpoly :=
  match n with
  | 0%nat => [1]
  | 1%nat => [0; 1]
  | 2%nat => [-1#2; 0; 3#2]
  | 3%nat => [0; -3#2; 0; 5#2]
  | 4%nat => [3#8; 0; -30#8; 0; 35#8]
  | 5%nat => [0; 15#8; 0; -70#8; 0; 63#8]
  | 6%nat => [-5#16; 0; 105#16; 0; -315#16; 0; 231#16]
  | 7%nat => [0; -35#16; 0; 315#16; 0; -693#16; 0; 429#16]
  | 8%nat => [35#128; 0; -1260#128; 0; 6930#128; 0; -12012#128; 0; 6435#128]
  | _ => []
  end%Q.
Ltac cases9 n H := assert (n = 0 \/ n = 1 \/ n = 2 \/ n = 3 \/ n = 4 \/ n = 5 \/ n = 6 \/ n = 7 \/ n = 8)%nat as H by lia;
  destruct H as [-> | [-> | [-> | [-> | [-> | [-> | [-> | [-> | ->]]]]]]]].
Lemma f_x_coef x n a b : f_x x n a b = ev (coef n) (local a b x).
Proof.
  unfold f_x, local, power. set (t := (2 * x - a - b) / (b - a)). clearbody t.
  do 9 (destruct n as [|n]; [cbn [coef ev power_loop]; unfold Q2R; cbn [Qnum Qden]; field|]). reflexivity.
Qed.
Lemma legendre_coef n t : (n <= 8)%nat -> legendre n t = ev (coef n) t.
Proof.
  intros H. cases9 n K; unfold legendre; cbn [legendre2 fst coef ev]; unfold Q2R; cbn [Qnum Qden INR]; field.
Qed.
(** constant between the antiderivative of the code and the one of the coefficients *)
Definition offset (n : nat) (a b : R) : R :=
  match n with
  | 0%nat => (a + b) / 2
  | 1%nat => 0
  | 2%nat => - (a + b) / 4
  | 4%nat => 3 * (a + b) / 16
  | 6%nat => - 5 * (a + b) / 32
  | 8%nat => 35 * (a + b) / 256
  | _ => 0
  end.
Lemma f_x_int_coef x n a b : a <> b -> f_x_int x n a b = (b - a) / 2 * ev (pint (coef n)) (local a b x) + offset n a b.
Proof.
  intros Hab. assert (H1 : b - a <> 0) by lra. assert (H2 : a - b <> 0) by lra. unfold f_x_int, local, power, pint.
  do 9 (destruct n as [|n]; [cbn [coef pint_from ev power_loop offset]; cbv [Qred Qdiv Qmult Qinv inject_Z Qnum Qden Z.ggcd Pos.ggcd]; simpl; unfold Q2R; cbn [Qnum Qden]; field; repeat split; assumption|]).
  cbn [coef pint_from ev offset]. rewrite Q2R_0. ring.
Qed.
Lemma local_deriv a b l x : a <> b -> derivable_pt_lim (fun x => (b - a) / 2 * ev (pint l) (local a b x)) x (ev l (local a b x)).
Proof.
  intros Hab. assert (H1 : b - a <> 0) by lra.
  assert (DL : derivable_pt_lim (local a b) x (2 / (b - a))).
  { intros eps Heps. exists (mkposreal 1 Rlt_0_1). intros h Hh _. unfold local.
    replace (((2 * (x + h) - a - b) / (b - a) - (2 * x - a - b) / (b - a)) / h - 2 / (b - a)) with 0 by (field; split; assumption).
    rewrite Rabs_R0. assumption. }
  pose proof (derivable_pt_lim_comp (local a b) (ev (pint l)) x _ _ DL (pint_deriv l (local a b x))) as D.
  pose proof (derivable_pt_lim_scal _ ((b - a) / 2) x _ D) as D2.
  replace ((b - a) / 2 * (ev l (local a b x) * (2 / (b - a)))) with (ev l (local a b x)) in D2 by (field; assumption). exact D2.
Qed.

(** ** theorems *)
Lemma antiderivative n a b x : a <> b -> derivable_pt_lim (fun x => f_x_int x n a b) x (f_x x n a b).
Proof.
  intros Hab. rewrite f_x_coef. pose proof (local_deriv a b (coef n) x Hab) as D.
  intros eps Heps. destruct (D eps Heps) as (d & Hd). exists d. intros h Hh1 Hh2. specialize (Hd h Hh1 Hh2).
  rewrite !f_x_int_coef by assumption. match goal with |- Rabs ((?u + ?c - (?v + ?c)) / h - ?w) < eps => replace (u + c - (v + c)) with (u - v) by ring end. exact Hd.
Qed.
Theorem C44_integrated_is_antiderivative : forall n a b x, a <> b -> derivable_pt_lim (fun x => f_x_int x n a b) x (f_x x n a b).
Proof. exact antiderivative. Qed.
Print Assumptions C44_integrated_is_antiderivative.

Lemma is_legendre n a b x : (n <= 8)%nat -> f_x x n a b = legendre n ((2 * x - a - b) / (b - a)).
Proof. intros H. rewrite f_x_coef, legendre_coef by assumption. reflexivity. Qed.
Theorem C44_shape_functions_are_legendre : forall n a b x, (n <= 8)%nat -> f_x x n a b = legendre n ((2 * x - a - b) / (b - a)).
Proof. exact is_legendre. Qed.
Print Assumptions C44_shape_functions_are_legendre.

Definition gram (i j : nat) : Q := let P := pint (pmul (coef i) (coef j)) in (qev P 1 - qev P (-1))%Q.
Definition gram_ok : bool :=
  forallb (fun i => forallb (fun j => Qeq_bool (gram i j) (if (i =? j)%nat then 2 # Pos.of_nat (2 * i + 1) else 0)%Q) (seq 0 9)) (seq 0 9).
Lemma gram_checked : gram_ok = true.
Proof. vm_compute. reflexivity. Qed.
Lemma orthogonal i j a b : (i <= 8)%nat -> (j <= 8)%nat -> a <> b ->
  exists F, (forall x, derivable_pt_lim F x (f_x x i a b * f_x x j a b)) /\
    F b - F a = if (i =? j)%nat then (b - a) / (2 * INR i + 1) else 0.
Proof.
  intros Hi Hj Hab. set (P := pmul (coef i) (coef j)). exists (fun x => (b - a) / 2 * ev (pint P) (local a b x)). split.
  - intros x. rewrite !f_x_coef, <- ev_pmul. apply local_deriv. assumption.
  - assert (E1 : local a b b = Q2R 1) by (unfold local, Q2R; simpl; field; lra).
    assert (E2 : local a b a = Q2R (-1)) by (unfold local, Q2R; simpl; field; lra).
    rewrite E1, E2, !qev_ev. rewrite <- Rmult_minus_distr_l, <- Q2R_minus. fold (gram i j).
    pose proof gram_checked as G. unfold gram_ok in G. rewrite forallb_forall in G. specialize (G i ltac:(apply in_seq; lia)).
    rewrite forallb_forall in G. specialize (G j ltac:(apply in_seq; lia)). apply Qeq_bool_iff, Qeq_eqR in G.
    change (qev (pint P) 1 - qev (pint P) (-1))%Q with (gram i j). rewrite G. destruct (Nat.eqb_spec i j) as [_|_].
    + unfold Q2R. cbn [Qnum Qden].
      assert (E : IZR (Z.pos (Pos.of_nat (2 * i + 1))) = 2 * INR i + 1).
      { rewrite <- positive_nat_Z, Nat2Pos.id by lia. rewrite <- INR_IZR_INZ, plus_INR, mult_INR. simpl. ring. }
      assert (0 <= INR i) by apply pos_INR. rewrite E. field. lra.
    + rewrite Q2R_0. ring.
Qed.
Theorem C44_shape_functions_are_orthogonal : forall i j a b, (i <= 8)%nat -> (j <= 8)%nat -> a <> b ->
  exists F, (forall x, derivable_pt_lim F x (f_x x i a b * f_x x j a b)) /\
    F b - F a = if (i =? j)%nat then (b - a) / (2 * INR i + 1) else 0.
Proof. exact orthogonal. Qed.
Print Assumptions C44_shape_functions_are_orthogonal.

Lemma above_8 n a b x : (8 < n)%nat -> f_x x n a b = 0 /\ f_x_int x n a b = 0.
Proof. intros H. do 9 (destruct n as [|n]; [lia|]). split; reflexivity. Qed.
Theorem C44_orders_above_8_are_zero : forall n a b x, (8 < n)%nat -> f_x x n a b = 0 /\ f_x_int x n a b = 0.
Proof. exact above_8. Qed.
Print Assumptions C44_orders_above_8_are_zero.

(** instance *)
Example C44_example : f_x 3 2 1 5 = - / 2 /\ f_x 5 3 1 5 = 1 /\ legendre 2 1 = 1.
Proof. unfold f_x, power, legendre. simpl. split; [field|split; field]. Qed.
