(** A check, on integers, that a rule on knot spans integrates splines, and its soundness. Per span the errors of the rule on the
    monomials are compared with a combination of the derivatives at the two ends of the span; over all spans these cancel. *)
From Coq Require Import Arith ZArith Reals List Bool Lra Lia.
From Verif Require Import SplineSpec.
Import ListNotations.
Local Open Scope Z_scope.

(** ** the check. A span holds points (position, weight) over the common denominator c *)
Definition span := list (Z * Z).
Definition fs : Z := 2 ^ 52.
Fixpoint powers (n : nat) (T s : Z) : list Z := match n with O => [] | S n => s :: powers n T (Z.shiftr (s * T) 52) end.
Fixpoint ladd (a b : list Z) : list Z := match a, b with x :: a, y :: b => x + y :: ladd a b | _, _ => [] end.
Definition moms (p : nat) (c : Z) (rho : span) : list Z :=
  fold_right (fun q acc => ladd (powers (S p) (fst q * fs / c) (snd q * fs / c)) acc) (repeat 0 (S p)) rho.
Definition fractions : list Z := [2520; 1260; 840; 630; 504; 420; 360; 315; 280].
Fixpoint errs_of (m fr : list Z) : list Z := match m, fr with x :: m, y :: fr => 2520 * x - Z.shiftl y 52 :: errs_of m fr | _, _ => [] end.
Definition errs (p : nat) (c : Z) (rho : span) : list Z := errs_of (moms p c rho) fractions.
(** coefficients of the k-th derivative at 1, over k! *)
Definition brow (k j : nat) : Z := match k with O => 1 | S O => Z.of_nat j | _ => Z.of_nat (j * (j - 1) / 2) end.
Fixpoint mdot (k : nat) (mu : list Z) (j : nat) : Z := match mu with [] => 0 | x :: mu => x * brow k j + mdot (S k) mu j end.
Definition tolz : Z := 2520 * 135.
Fixpoint balanced (j : nat) (lam E : list Z) (mu : list Z) : bool :=
  match E with
  | [] => true
  | x :: E => (Z.abs (x - hd 0 lam + mdot 0 mu j) <=? tolz) && balanced (S j) (tl lam) E mu
  end.
Definition in_range (c : Z) (q : Z * Z) : bool := (0 <=? fst q) && (fst q <=? c) && (0 <=? snd q) && (snd q <=? 2 * c).
Definition span_okb (p : nat) (c : Z) (lam : list Z) (rho : span) (mu : list Z) : bool :=
  (length rho <=? 5)%nat && forallb (in_range c) rho && balanced 0 lam (errs p c rho) mu.
(** a candidate for the coefficients at the right end, from polynomials that vanish with their derivatives at the left end *)
Definition hermite (r : nat) : list (list Z) :=
  match r with
  | O => [[0; 1]]
  | S O => [[0; 0; 3; -2]; [0; 0; -1; 1]]
  | _ => [[0; 0; 0; 10; -15; 6]; [0; 0; 0; -4; 7; -3]; [0; 0; 0; 1; -2; 1]]
  end.
Fixpoint zdot (a b : list Z) : Z := match a, b with x :: a, y :: b => x * y + zdot a b | _, _ => 0 end.
Definition next (r : nat) (E : list Z) : list Z := map (fun h => - zdot h E) (hermite r).
Fixpoint zeqb (a b : list Z) : bool := match a, b with [], [] => true | x :: a, y :: b => (x =? y) && zeqb a b | _, _ => false end.
Fixpoint chainb (p r : nat) (c : Z) (lam : list Z) (es : list span) (mu : list Z) : bool :=
  match es with
  | [] => zeqb lam mu
  | rho :: es' =>
      let E := errs p c rho in
      let nu := match es' with [] => mu | _ => next r E end in
      (length rho <=? 5)%nat && forallb (in_range c) rho && balanced 0 lam E nu && chainb p r c nu es' mu
  end.
Inductive chain (p r : nat) (c : Z) : list Z -> list span -> list Z -> Prop :=
  | chain_nil lam : chain p r c lam [] lam
  | chain_cons lam rho nu es mu : (length nu <= r + 1)%nat -> span_okb p c lam rho nu = true -> chain p r c nu es mu -> chain p r c lam (rho :: es) mu.

Lemma zeqb_ok a : forall b, zeqb a b = true -> a = b.
Proof. induction a as [|x a IH]; intros [|y b] H; try discriminate; [reflexivity|]. cbn [zeqb] in H. apply andb_true_iff in H. destruct H as (H1 & H2). apply Z.eqb_eq in H1. rewrite H1, (IH b H2). reflexivity. Qed.
Lemma hermite_length r : (r <= 2)%nat -> length (hermite r) = (r + 1)%nat.
Proof. destruct r as [|[|[|r]]]; try reflexivity. lia. Qed.
Lemma chainb_ok p r c : (r <= 2)%nat -> forall es lam mu, (length mu <= r + 1)%nat -> chainb p r c lam es mu = true -> chain p r c lam es mu.
Proof.
  intros Hr. induction es as [|rho es IH]; intros lam mu Hm H; cbn [chainb] in H; [apply zeqb_ok in H; subst; constructor|].
  apply andb_true_iff in H. destruct H as (H & H2). assert (Hn : (length (match es with [] => mu | _ => next r (errs p c rho) end) <= r + 1)%nat).
  { destruct es; [exact Hm|]. unfold next. rewrite map_length, hermite_length by exact Hr. lia. }
  apply chain_cons with (nu := match es with [] => mu | _ => next r (errs p c rho) end); [exact Hn|exact H|apply IH; assumption].
Qed.
Lemma chain_app p r c a : forall lam mu nu b, chain p r c lam a mu -> chain p r c mu b nu -> chain p r c lam (a ++ b) nu.
Proof. induction a as [|rho a IH]; intros lam mu nu b H1 H2; inversion H1; subst; [assumption|]. cbn [app]. eapply chain_cons; [eassumption|eassumption|]. eapply IH; eassumption. Qed.
Fixpoint times {A} (n : nat) (l : list A) : list A := match n with O => [] | S n => l ++ times n l end.
Lemma chain_times p r c lam es : chain p r c lam es lam -> forall n, chain p r c lam (times n es) lam.
Proof. intros H. induction n as [|n IH]; [constructor|]. cbn [times]. eapply chain_app; eassumption. Qed.
Lemma times_length {A} n (l : list A) : length (times n l) = (n * length l)%nat.
Proof. induction n as [|n IH]; [reflexivity|]. cbn [times]. rewrite app_length, IH. reflexivity. Qed.

Local Open Scope R_scope.
(** ** linear functionals of coefficient lists *)
Fixpoint lin (f : nat -> R) (j : nat) (c : list R) : R := match c with [] => 0 | a :: c => f j * a + lin f (S j) c end.
Lemma lin_ext f g c : forall j, (forall i, (j <= i < j + length c)%nat -> f i = g i) -> lin f j c = lin g j c.
Proof. induction c as [|a c IH]; intros j H; [reflexivity|]. cbn [lin length] in *. rewrite (H j) by lia. f_equal. apply IH. intros i Hi. apply H. lia. Qed.
Lemma lin_add f g c : forall j, lin (fun i => f i + g i) j c = lin f j c + lin g j c.
Proof. induction c as [|a c IH]; intros j; cbn [lin]; [ring|]. rewrite IH. ring. Qed.
Lemma lin_sub f g c : forall j, lin (fun i => f i - g i) j c = lin f j c - lin g j c.
Proof. induction c as [|a c IH]; intros j; cbn [lin]; [ring|]. rewrite IH. ring. Qed.
Lemma lin_scale s f c : forall j, lin (fun i => s * f i) j c = s * lin f j c.
Proof. induction c as [|a c IH]; intros j; cbn [lin]; [ring|]. rewrite IH. ring. Qed.
Lemma lin_zero c : forall j, lin (fun _ => 0) j c = 0.
Proof. induction c as [|a c IH]; intros j; cbn [lin]; [ring|]. rewrite IH. ring. Qed.
Lemma lin_bound f d c : 0 <= d -> forall j, (forall i, (j <= i < j + length c)%nat -> Rabs (f i) <= d) -> Rabs (lin f j c) <= d * size c.
Proof.
  intros Hd. induction c as [|a c IH]; intros j H; cbn [lin size fold_right length] in *; [rewrite Rabs_R0; lra|].
  specialize (IH (S j) ltac:(intros i Hi; apply H; lia)). pose proof (H j ltac:(lia)) as Hj. eapply Rle_trans; [apply Rabs_triang|]. rewrite Rabs_mult. unfold size in IH.
  pose proof (Rabs_pos a). assert (Rabs (f j) * Rabs a <= d * Rabs a) by (apply Rmult_le_compat_r; lra). lra.
Qed.
Lemma lin_value t c : forall j, lin (fun i => t ^ i) j c = t ^ j * value c t.
Proof. induction c as [|a c IH]; intros j; cbn [lin value fold_right]; [ring|]. rewrite IH. unfold value. cbn [pow]. ring. Qed.

(** ** derivatives at the ends *)
Lemma value_0 c : value c 0 = hd 0 c.
Proof. destruct c; cbn [value fold_right hd]; ring. Qed.
Lemma weighted_length k c : length (weighted k c) = length c.
Proof. revert k. induction c as [|a c IH]; intros k; cbn [weighted length]; auto. Qed.
Lemma lin_weighted f c : forall j k, lin f j (weighted k c) = lin (fun i => f (i - k + j)%nat * INR i) k c.
Proof.
  induction c as [|a c IH]; intros j k; [reflexivity|]. cbn [weighted lin]. rewrite IH. replace (k - k + j)%nat with j by lia. rewrite (lin_ext (fun i => f (i - S k + S j)%nat * INR i) (fun i => f (i - k + j)%nat * INR i)); [ring|].
  intros i Hi. f_equal. f_equal. lia.
Qed.
Lemma lin_derivative f c : lin f 0 (derivative c) = lin (fun i => match i with O => 0 | S i' => f i' * INR i end) 0 c.
Proof.
  destruct c as [|a c]; [reflexivity|]. cbn [derivative]. rewrite lin_weighted. cbn [lin]. rewrite Rmult_0_l, Rplus_0_l. apply lin_ext. intros [|i] Hi; [lia|]. f_equal. f_equal. lia.
Qed.
Lemma value_1 c : value c 1 = lin (fun _ => 1) 0 c.
Proof. rewrite (lin_ext (fun _ => 1) (fun i => 1 ^ i)) by (intros; rewrite pow1; reflexivity). rewrite lin_value. ring. Qed.
Lemma hd_lin c : hd 0 c = lin (fun i => match i with O => 1 | _ => 0 end) 0 c.
Proof. destruct c as [|a c]; [reflexivity|]. cbn [lin hd]. rewrite (lin_ext _ (fun _ => 0)) by (intros [|i] Hi; [lia|reflexivity]). rewrite lin_zero. ring. Qed.
Lemma nth_lin k : forall c j, (j <= k)%nat -> lin (fun i => if (i =? k)%nat then 1 else 0) j c = nth (k - j) c 0.
Proof.
  intros c. induction c as [|a c IH]; intros j Hj; [destruct (k - j)%nat; reflexivity|]. cbn [lin]. destruct (Nat.eqb_spec j k) as [->|N].
  - rewrite Nat.sub_diag. cbn [nth]. rewrite (lin_ext _ (fun _ => 0)); [rewrite lin_zero; ring|]. intros i Hi. destruct (Nat.eqb_spec i k); [lia|reflexivity].
  - rewrite IH by lia. replace (k - j)%nat with (S (k - S j)) by lia. cbn [nth]. ring.
Qed.
Lemma brow_2 j : IZR (brow 2 j) * 2 = INR j * (INR j - 1).
Proof.
  cbn [brow]. destruct j as [|j]; [cbn; ring|]. replace (S j - 1)%nat with j by lia.
  assert (E : exists h, (S j * j = h * 2)%nat) by (induction j as [|j (h & IH)]; [exists 0%nat; reflexivity|exists (h + S j)%nat; lia]). destruct E as (h & E). rewrite E, Nat.div_mul by lia.
  rewrite <- INR_IZR_INZ. apply (f_equal INR) in E. rewrite !mult_INR in E. change (INR 2) with 2 in E. rewrite S_INR in *. lra.
Qed.
(** the condition on the derivatives, as a condition on the coefficients *)
Lemma joint k A B : (k <= 2)%nat -> value (derivatives k A) 1 = value (derivatives k B) 0 -> lin (fun j => IZR (brow k j)) 0 A = nth k B 0.
Proof.
  intros Hk H. rewrite value_1, value_0, hd_lin in H. assert (C : (k = 0 \/ k = 1 \/ k = 2)%nat) by lia. destruct C as [-> | [-> | ->]]; cbn [derivatives] in H.
  - cbn [brow]. rewrite H. change (nth 0 B 0) with (nth (0 - 0) B 0); rewrite <- (nth_lin 0 B 0) by lia. apply lin_ext. intros [|i] _; reflexivity.
  - rewrite !lin_derivative in H. change (nth 1 B 0) with (nth (1 - 0) B 0); rewrite <- (nth_lin 1 B 0) by lia.
    rewrite (lin_ext _ (fun i => match i with O => 0 | S _ => 1 * INR i end)); [rewrite H; apply lin_ext; intros [|[|i]] _; cbn [INR Nat.eqb]; ring|].
    intros [|i] _; cbn [brow]; rewrite <- INR_IZR_INZ; [reflexivity|ring].
  - rewrite !lin_derivative in H. change (nth 2 B 0) with (nth (2 - 0) B 0); rewrite <- (nth_lin 2 B 0) by lia.
    assert (E1 : lin (fun j => IZR (brow 2 j)) 0 A = / 2 * lin (fun i => match i with O => 0 | S i' => match i' with O => 0 | S _ => 1 * INR i' end * INR i end) 0 A).
    { rewrite <- lin_scale. apply lin_ext. intros i _. pose proof (brow_2 i) as E. destruct i as [|[|i]]; [cbn; lra|cbn; lra|]. replace (INR (S (S i))) with (INR (S i) + 1) in * by (rewrite (S_INR (S i)); reflexivity). lra. }
    rewrite E1, H, <- lin_scale. apply lin_ext. intros [|[|[|i]]] _; cbn [Nat.eqb]; try ring. change (INR 1) with 1. change (INR 2) with 2. lra.
Qed.

(** ** rounding of the integer check *)
Definition contribution (den : Z) (rho : span) (g : R -> R) : R := fold_right (fun q s => IZR (snd q) / IZR den * g (IZR (fst q) / IZR den) + s) 0 rho.
Definition integral (c : list R) : R := lin (fun j => / INR (S j)) 0 c.
Definition eps (den : Z) (rho : span) (j : nat) : R := contribution den rho (fun t => t ^ j) - / INR (S j).
Lemma contribution_value den rho c : contribution den rho (value c) = lin (fun j => contribution den rho (fun t => t ^ j)) 0 c.
Proof.
  induction rho as [|q rho IH]; cbn [contribution fold_right]; [symmetry; apply lin_zero|]. fold (contribution den rho (value c)). rewrite IH. rewrite lin_add, lin_scale, lin_value. unfold contribution. cbn [pow]. ring.
Qed.
Lemma contribution_error den rho c : contribution den rho (value c) - integral c = lin (eps den rho) 0 c.
Proof. rewrite contribution_value. unfold integral, eps. rewrite lin_sub. reflexivity. Qed.

Definition S52 : R := IZR fs.
Lemma S52_pos : 0 < S52. Proof. unfold S52, fs. apply IZR_lt. reflexivity. Qed.
Lemma floor_bounds a b : (0 < b)%Z -> 0 <= IZR a / IZR b - IZR (a / b) <= 1.
Proof.
  intros Hb. pose proof (Z.div_mod a b ltac:(lia)) as E. pose proof (Z.mod_pos_bound a b Hb) as M. apply (f_equal IZR) in E. rewrite plus_IZR, mult_IZR in E.
  assert (HB : 0 < IZR b) by (apply IZR_lt; exact Hb). destruct M as (M1 & M2). apply IZR_le in M1. apply IZR_lt in M2.
  replace (IZR a / IZR b - IZR (a / b)) with (IZR (a mod b) / IZR b) by (rewrite E; field; lra). split.
  - apply Rmult_le_pos; [exact M1|]. left. apply Rinv_0_lt_compat. exact HB.
  - apply Rmult_le_reg_r with (IZR b); [exact HB|]. unfold Rdiv. rewrite Rmult_assoc, Rinv_l by lra. lra.
Qed.
Lemma scaled_floor den x : (0 < den)%Z -> 0 <= IZR x / IZR den - IZR (x * fs / den) / S52 <= 1 / S52.
Proof.
  intros Hd. pose proof (floor_bounds (x * fs) den Hd) as H. rewrite mult_IZR in H. fold S52 in H. pose proof S52_pos as HS.
  assert (HD : 0 < IZR den) by (apply IZR_lt; exact Hd).
  replace (IZR x / IZR den - IZR (x * fs / den) / S52) with ((IZR x * S52 / IZR den - IZR (x * fs / den)) / S52) by (field; lra).
  assert (0 < / S52) by (apply Rinv_0_lt_compat; exact HS). unfold Rdiv. split; [apply Rmult_le_pos; [apply H|lra]|apply Rmult_le_compat_r; [lra|apply H]].
Qed.
Lemma powers_length n : forall T s, length (powers n T s) = n.
Proof. induction n as [|n IH]; intros T s; cbn [powers length]; auto. Qed.
Lemma powers_error t T : 0 <= t <= 1 -> (0 <= T)%Z -> 0 <= t - IZR T / S52 <= 1 / S52 -> forall n s u B, (0 <= s)%Z -> 0 <= u <= 2 -> 0 <= u - IZR s / S52 <= B / S52 ->
  forall j, (j < n)%nat -> 0 <= u * t ^ j - IZR (nth j (powers n T s) 0%Z) / S52 <= (B + 3 * INR j) / S52.
Proof.
  intros Ht HT HtT. pose proof S52_pos as HS. assert (HI : 0 < / S52) by (apply Rinv_0_lt_compat; exact HS).
  induction n as [|n IH]; intros s u B Hs Hu Hus j Hj; [lia|]. cbn [powers]. destruct j as [|j]; cbn [nth]; [cbn [pow INR]; rewrite Rmult_1_r, Rmult_0_r, Rplus_0_r; exact Hus|].
  assert (Hfl : 0 <= IZR s / S52 * (IZR T / S52) - IZR (Z.shiftr (s * T) 52) / S52 <= 1 / S52).
  { rewrite Z.shiftr_div_pow2 by lia. change (2 ^ 52)%Z with fs. pose proof (floor_bounds (s * T) fs ltac:(reflexivity)) as F. rewrite mult_IZR in F. fold S52 in F.
    replace (IZR s / S52 * (IZR T / S52) - IZR (s * T / fs) / S52) with ((IZR s * IZR T / S52 - IZR (s * T / fs)) * / S52) by (field; lra).
    unfold Rdiv at 3. split; [apply Rmult_le_pos; lra|apply Rmult_le_compat_r; lra]. }
  assert (Hs0 : 0 <= IZR s / S52) by (apply Rmult_le_pos; [apply IZR_le; exact Hs|lra]).
  assert (HT0 : 0 <= IZR T / S52) by (apply Rmult_le_pos; [apply IZR_le; exact HT|lra]).
  assert (N : 0 <= u * t - IZR (Z.shiftr (s * T) 52) / S52 <= (B + 3) / S52).
  { replace (u * t - IZR (Z.shiftr (s * T) 52) / S52) with (t * (u - IZR s / S52) + IZR s / S52 * (t - IZR T / S52) + (IZR s / S52 * (IZR T / S52) - IZR (Z.shiftr (s * T) 52) / S52)) by ring.
    assert (H1 : 0 <= t * (u - IZR s / S52) <= B / S52) by nra.
    assert (H2 : 0 <= IZR s / S52 * (t - IZR T / S52) <= 2 * (1 / S52)) by nra. replace ((B + 3) / S52) with (B / S52 + 2 * (1 / S52) + 1 / S52) by (field; lra). lra. }
  specialize (IH (Z.shiftr (s * T) 52) (u * t) (B + 3)).
  replace (u * t ^ S j) with (u * t * t ^ j) by (cbn [pow]; ring). replace (B + 3 * INR (S j)) with (B + 3 + 3 * INR j) by (rewrite S_INR; ring).
  apply IH; [apply Z.shiftr_nonneg; nia|nra|exact N|lia].
Qed.
Lemma ladd_length a : forall b, length a = length b -> length (ladd a b) = length a.
Proof. induction a as [|x a IH]; intros [|y b] H; try discriminate; [reflexivity|]. cbn [ladd length] in *. f_equal. apply IH. lia. Qed.
Lemma ladd_nth a : forall b j, length a = length b -> (j < length a)%nat -> nth j (ladd a b) 0%Z = (nth j a 0 + nth j b 0)%Z.
Proof. induction a as [|x a IH]; intros [|y b] [|j] H Hj; try discriminate; cbn [length] in *; try lia; [reflexivity|]. cbn [ladd nth]. apply IH; lia. Qed.
Lemma moms_length p den rho : length (moms p den rho) = S p.
Proof. unfold moms. induction rho as [|q rho IH]; cbn [fold_right]; [apply repeat_length|]. rewrite ladd_length; rewrite powers_length; congruence. Qed.
Lemma moms_error p den rho : (0 < den)%Z -> forallb (in_range den) rho = true -> forall j, (j <= p)%nat ->
  0 <= contribution den rho (fun t => t ^ j) - IZR (nth j (moms p den rho) 0%Z) / S52 <= INR (length rho) * (1 + 3 * INR j) / S52.
Proof.
  intros Hd Hr j Hj. pose proof S52_pos as HS. induction rho as [|q rho IH].
  - cbn [contribution fold_right moms length INR]. rewrite nth_repeat. unfold Rdiv. rewrite !Rmult_0_l, Rminus_0_r. lra.
  - cbn [forallb] in Hr. apply andb_true_iff in Hr. destruct Hr as (Hq & Hr). specialize (IH Hr). unfold in_range in Hq. rewrite !andb_true_iff, !Z.leb_le in Hq. destruct Hq as (((H1 & H2) & H3) & H4).
    assert (HD : 0 < IZR den) by (apply IZR_lt; exact Hd). assert (HDI : 0 < / IZR den) by (apply Rinv_0_lt_compat; exact HD).
    unfold moms. cbn [fold_right]. fold (moms p den rho). rewrite ladd_nth; [|rewrite powers_length, moms_length; reflexivity|rewrite powers_length; lia]. rewrite plus_IZR.
    assert (Ht : 0 <= IZR (fst q) / IZR den <= 1).
    { split; [apply Rmult_le_pos; [apply IZR_le; exact H1|lra]|]. apply Rmult_le_reg_r with (IZR den); [exact HD|]. unfold Rdiv. rewrite Rmult_assoc, Rinv_l by lra. apply IZR_le in H2. lra. }
    assert (Hw : 0 <= IZR (snd q) / IZR den <= 2).
    { split; [apply Rmult_le_pos; [apply IZR_le; exact H3|lra]|]. apply Rmult_le_reg_r with (IZR den); [exact HD|]. unfold Rdiv. rewrite Rmult_assoc, Rinv_l by lra. apply IZR_le in H4. rewrite mult_IZR in H4. lra. }
    pose proof (powers_error (IZR (fst q) / IZR den) (fst q * fs / den) Ht ltac:(apply Z.div_pos; [apply Z.mul_nonneg_nonneg; [exact H1|discriminate]|exact Hd]) (scaled_floor den (fst q) Hd)
      (S p) (snd q * fs / den) (IZR (snd q) / IZR den) 1 ltac:(apply Z.div_pos; [apply Z.mul_nonneg_nonneg; [exact H3|discriminate]|exact Hd]) Hw (scaled_floor den (snd q) Hd) j ltac:(lia)) as E.
    unfold contribution. cbn [fold_right]. fold (contribution den rho (fun t => t ^ j)). cbn [length]. rewrite S_INR.
    replace ((INR (length rho) + 1) * (1 + 3 * INR j) / S52) with (INR (length rho) * (1 + 3 * INR j) / S52 + (1 + 3 * INR j) / S52) by (field; lra).
    replace ((IZR (nth j (powers (S p) (fst q * fs / den) (snd q * fs / den)) 0%Z) + IZR (nth j (moms p den rho) 0%Z)) / S52) with
      (IZR (nth j (powers (S p) (fst q * fs / den) (snd q * fs / den)) 0%Z) / S52 + IZR (nth j (moms p den rho) 0%Z) / S52) by (field; lra). lra.
Qed.
Lemma errs_of_length m : forall fr, (length m <= length fr)%nat -> length (errs_of m fr) = length m.
Proof. induction m as [|x m IH]; intros [|y fr] H; cbn [length errs_of] in *; try lia; try reflexivity. f_equal. apply IH. lia. Qed.
Lemma errs_of_nth m : forall fr j, (length m <= length fr)%nat -> (j < length m)%nat -> nth j (errs_of m fr) 0%Z = (2520 * nth j m 0 - nth j fr 0 * fs)%Z.
Proof.
  induction m as [|x m IH]; intros [|y fr] [|j] H Hj; cbn [length] in *; try lia; cbn [errs_of nth]; [rewrite Z.shiftl_mul_pow2 by lia; reflexivity|]. apply IH; lia.
Qed.
Lemma errs_length p den rho : (p <= 8)%nat -> length (errs p den rho) = S p.
Proof. intros H. unfold errs. rewrite errs_of_length; rewrite moms_length; [reflexivity|cbn [fractions length]; lia]. Qed.
Lemma fractions_ok j : (j <= 8)%nat -> IZR (nth j fractions 0%Z) = 2520 * / INR (S j).
Proof. intros H. do 9 (destruct j as [|j]; [cbn [nth fractions]; rewrite INR_IZR_INZ; cbn [Z.of_nat Pos.of_succ_nat Pos.succ]; field|]). lia. Qed.
Lemma errs_error p den rho : (0 < den)%Z -> (p <= 8)%nat -> (length rho <= 5)%nat -> forallb (in_range den) rho = true -> forall j, (j <= p)%nat ->
  Rabs (eps den rho j - IZR (nth j (errs p den rho) 0%Z) / (2520 * S52)) <= 125 / S52.
Proof.
  intros Hd Hp Hl Hr j Hj. pose proof S52_pos as HS. pose proof (moms_error p den rho Hd Hr j Hj) as M. unfold errs. rewrite errs_of_nth; rewrite ?moms_length; [|cbn [fractions length]; lia|lia].
  rewrite minus_IZR, !mult_IZR, fractions_ok by lia. fold S52. unfold eps. set (y := / INR (S j)).
  replace (contribution den rho (fun t => t ^ j) - y - (2520 * IZR (nth j (moms p den rho) 0%Z) - 2520 * y * S52) / (2520 * S52)) with
    (contribution den rho (fun t => t ^ j) - IZR (nth j (moms p den rho) 0%Z) / S52) by (field; lra).
  rewrite Rabs_right by lra. eapply Rle_trans; [apply M|]. apply Rmult_le_compat_r; [left; apply Rinv_0_lt_compat; exact HS|].
  apply le_INR in Hl. assert (INR j <= 8) by (replace 8 with (INR 8) by (cbn; ring); apply le_INR; lia). replace (INR 5) with 5 in Hl by (cbn; ring). pose proof (pos_INR j). pose proof (pos_INR (length rho)). nra.
Qed.
Lemma balanced_ok E : forall j lam mu, balanced j lam E mu = true -> forall i, (i < length E)%nat -> (Z.abs (nth i E 0 - nth i lam 0 + mdot 0 mu (j + i)) <= tolz)%Z.
Proof.
  induction E as [|x E IH]; intros j lam mu H i Hi; cbn [length] in Hi; [lia|]. cbn [balanced] in H. apply andb_true_iff in H. destruct H as (H1 & H2). apply Z.leb_le in H1. destruct i as [|i].
  - cbn [nth]. rewrite Nat.add_0_r. replace (nth 0 lam 0%Z) with (hd 0%Z lam) by (destruct lam; reflexivity). exact H1.
  - specialize (IH _ _ _ H2 i ltac:(lia)). cbn [nth]. replace (nth (S i) lam 0%Z) with (nth i (tl lam) 0%Z) by (destruct lam; [destruct i; reflexivity|reflexivity]). replace (j + S i)%nat with (S j + i)%nat by lia. exact IH.
Qed.

(** ** the functionals of a chain *)
Definition left_part (lam : list Z) (c : list R) : R := lin (fun j => IZR (nth j lam 0%Z) / (2520 * S52)) 0 c.
Definition right_part (mu : list Z) (c : list R) : R := lin (fun j => IZR (mdot 0 mu j) / (2520 * S52)) 0 c.
Definition slack : R := 260 / S52.
Lemma span_error p den lam rho mu : (0 < den)%Z -> (p <= 8)%nat -> span_okb p den lam rho mu = true -> forall c, (length c <= p + 1)%nat ->
  Rabs (contribution den rho (value c) - integral c - left_part lam c + right_part mu c) <= slack * size c.
Proof.
  intros Hd Hp H c Hc. unfold span_okb in H. rewrite !andb_true_iff, Nat.leb_le in H. destruct H as ((H1 & H2) & H3). pose proof S52_pos as HS.
  rewrite contribution_error. unfold left_part, right_part. rewrite <- lin_sub, <- lin_add. apply lin_bound; [unfold slack; apply Rmult_le_pos; [lra|left; apply Rinv_0_lt_compat; exact HS]|].
  intros j Hj. pose proof (errs_error p den rho Hd Hp H1 H2 j ltac:(lia)) as E1. pose proof (balanced_ok _ _ _ _ H3 j ltac:(rewrite errs_length by exact Hp; lia)) as E2. cbn [Nat.add] in E2.
  apply IZR_le in E2. rewrite abs_IZR, plus_IZR, minus_IZR in E2. unfold tolz in E2. rewrite mult_IZR in E2. set (z := IZR (nth j (errs p den rho) 0%Z)) in *. set (a := IZR (nth j lam 0%Z)) in *. set (b := IZR (mdot 0 mu j)) in *.
  replace (eps den rho j - a / (2520 * S52) + b / (2520 * S52)) with ((eps den rho j - z / (2520 * S52)) + (z - a + b) * / (2520 * S52)) by (field; lra).
  eapply Rle_trans; [apply Rabs_triang|]. rewrite Rabs_mult. assert (HI : 0 < / (2520 * S52)) by (apply Rinv_0_lt_compat; lra). rewrite (Rabs_right (/ _)) by lra.
  assert (Rabs (z - a + b) * / (2520 * S52) <= 2520 * 135 * / (2520 * S52)) by (apply Rmult_le_compat_r; lra).
  unfold slack. replace (260 / S52) with (125 / S52 + 2520 * 135 * / (2520 * S52)) by (field; lra). lra.
Qed.
Lemma lin_mdot A B : forall mu k, (forall i, (i < length mu)%nat -> lin (fun j => IZR (brow (k + i) j)) 0 A = nth (k + i) B 0) ->
  lin (fun j => IZR (mdot k mu j)) 0 A = fold_right Rplus 0 (map (fun i => IZR (nth i mu 0%Z) * nth (k + i) B 0) (seq 0 (length mu))).
Proof.
  induction mu as [|x mu IH]; intros k H; cbn [mdot length seq map fold_right]; [apply lin_zero|].
  rewrite (lin_ext _ (fun j => IZR x * IZR (brow k j) + IZR (mdot (S k) mu j))) by (intros; rewrite plus_IZR, mult_IZR; reflexivity). rewrite lin_add, lin_scale. f_equal.
  - cbn [nth]. f_equal. specialize (H 0%nat ltac:(cbn; lia)). rewrite Nat.add_0_r in *. exact H.
  - rewrite IH. 2:{ intros i Hi. specialize (H (S i) ltac:(cbn; lia)). replace (S k + i)%nat with (k + S i)%nat by lia. exact H. }
    f_equal. rewrite <- seq_shift, map_map. apply map_ext. intros i. cbn [nth]. replace (S k + i)%nat with (k + S i)%nat by lia. reflexivity.
Qed.
Lemma lin_nth : forall lam B s j0, (forall j, (j0 <= j)%nat -> s j = nth (j - j0) lam 0) -> lin s j0 B = fold_right Rplus 0 (map (fun i => nth i lam 0 * nth i B 0) (seq 0 (length lam))).
Proof.
  induction lam as [|x lam IH]; intros B s j0 Hs.
  - cbn [length seq map fold_right]. rewrite (lin_ext s (fun _ => 0)); [apply lin_zero|]. intros i Hi. rewrite Hs by lia. destruct (i - j0)%nat; reflexivity.
  - destruct B as [|b B].
    + cbn [lin]. clear. induction (seq 0 (length (x :: lam))) as [|a l IHl]; [reflexivity|]. cbn [map fold_right]. rewrite <- IHl. destruct a; cbn [nth]; ring.
    + cbn [lin length seq map fold_right]. rewrite (Hs j0) by lia. rewrite Nat.sub_diag. cbn [nth]. f_equal. rewrite (IH B s (S j0)).
      * f_equal. rewrite <- seq_shift, map_map. apply map_ext. intros i. reflexivity.
      * intros j Hj. rewrite Hs by lia. replace (j - j0)%nat with (S (j - S j0)) by lia. reflexivity.
Qed.
Lemma parts_join r A B mu : (r <= 2)%nat -> (length mu <= r + 1)%nat -> (forall k, (k <= r)%nat -> value (derivatives k A) 1 = value (derivatives k B) 0) -> right_part mu A = left_part mu B.
Proof.
  intros Hr Hm H. unfold right_part, left_part.
  rewrite (lin_ext _ (fun j => / (2520 * S52) * IZR (mdot 0 mu j))) by (intros; unfold Rdiv; ring). rewrite lin_scale.
  rewrite (lin_ext (fun j => IZR (nth j mu 0%Z) / _) (fun j => / (2520 * S52) * IZR (nth j mu 0%Z))) by (intros; unfold Rdiv; ring). rewrite lin_scale. f_equal.
  rewrite (lin_mdot A B mu 0). 2:{ intros i Hi. cbn [Nat.add]. apply joint; [lia|]. apply H. lia. }
  rewrite (lin_nth (map IZR mu) B _ 0). 2:{ intros j _. rewrite Nat.sub_0_r. change 0 with (IZR 0). rewrite map_nth. reflexivity. }
  rewrite map_length. f_equal. apply map_ext. intros i. cbn [Nat.add]. change 0 with (IZR 0) at 2. rewrite map_nth. reflexivity.
Qed.
Fixpoint errors (den : Z) (es : list span) (i : nat) (P : nat -> list R) : R :=
  match es with [] => 0 | rho :: es => contribution den rho (value (P i)) - integral (P i) + errors den es (S i) P end.
Fixpoint sizes (n i : nat) (P : nat -> list R) : R := match n with O => 0 | S n => size (P i) + sizes n (S i) P end.
Lemma chain_error p r den : (0 < den)%Z -> (p <= 8)%nat -> (r <= 2)%nat -> forall es lam mu i P, es <> [] -> chain p r den lam es mu ->
  (forall j, (i <= j < i + length es)%nat -> (length (P j) <= p + 1)%nat) ->
  (forall j k, (i <= j)%nat -> (S j < i + length es)%nat -> (k <= r)%nat -> value (derivatives k (P j)) 1 = value (derivatives k (P (S j))) 0) ->
  Rabs (errors den es i P - left_part lam (P i) + right_part mu (P (i + length es - 1)%nat)) <= slack * sizes (length es) i P.
Proof.
  intros Hd Hp Hr. induction es as [|rho es IH]; intros lam mu i P Hne H HP HJ; [congruence|]. inversion H as [|? ? nu ? ? Hn Hs Hc]; subst. cbn [errors length sizes] in *.
  pose proof (span_error p den lam rho nu Hd Hp Hs (P i) ltac:(apply HP; lia)) as E. destruct es as [|rho' es].
  - inversion Hc; subst. cbn [errors length sizes]. replace (i + 1 - 1)%nat with i by lia. rewrite !Rplus_0_r. exact E.
  - specialize (IH nu mu (S i) P ltac:(congruence) Hc ltac:(intros; apply HP; lia) ltac:(intros; apply HJ; lia)).
    replace (i + S (length (rho' :: es)) - 1)%nat with (S i + length (rho' :: es) - 1)%nat by (cbn [length]; lia). rewrite Rmult_plus_distr_l.
    assert (J : right_part nu (P i) = left_part nu (P (S i))) by (apply (parts_join r); [exact Hr|exact Hn|intros k Hk; apply HJ; cbn [length]; lia]).
    match goal with |- Rabs ?a <= _ => replace a with ((contribution den rho (value (P i)) - integral (P i) - left_part lam (P i) + right_part nu (P i)) +
      (errors den (rho' :: es) (S i) P - left_part nu (P (S i)) + right_part mu (P (S i + length (rho' :: es) - 1)%nat))) by (rewrite J; ring) end.
    eapply Rle_trans; [apply Rabs_triang|]. lra.
Qed.
Lemma parts_nil c : left_part [] c = 0 /\ right_part [] c = 0.
Proof. unfold left_part, right_part. split; (rewrite (lin_ext _ (fun _ => 0)); [apply lin_zero|]); intros j _; [destruct j|]; cbn; unfold Rdiv; ring. Qed.
Lemma chain_closed p r den es P : (0 < den)%Z -> (p <= 8)%nat -> (r <= 2)%nat -> es <> [] -> chain p r den [] es [] -> spline_pieces p r (length es) P ->
  Rabs (errors den es 0 P) <= slack * sizes (length es) 0 P.
Proof.
  intros Hd Hp Hr Hne H (H1 & H2). pose proof (chain_error p r den Hd Hp Hr es [] [] 0 P Hne H ltac:(intros; apply H1; lia) ltac:(intros; apply H2; lia)) as E.
  destruct (parts_nil (P 0%nat)) as (E1 & _). destruct (parts_nil (P (0 + length es - 1)%nat)) as (_ & E2). rewrite E1, E2 in E. rewrite Rminus_0_r, Rplus_0_r in E. exact E.
Qed.
