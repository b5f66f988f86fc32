(** Proofs about the Gauss rules: moments of the tables, exactness on boxes. *)
From Coq Require Import Arith Reals QArith Qreals List Bool Lra Lia Psatz.
From Verif Require Import Geo GgqModel GgqProofs GaussTable Ggq1dModel Ggq1dAll GaussModel.
Import ListNotations.
Local Open Scope R_scope.

Definition rtol : R := / 10 ^ 14.

(** ** the moments of a table row, on integers *)
Fixpoint moments_loop (fuel : nat) (m1 : Z) (c cm : Z) (l : list (Z * Z)) : bool :=
  (* l: (X, W X^m); m1 = m + 1; cm = c^(m+1) *)
  match fuel with
  | O => true
  | S k => (Z.abs (m1 * fold_right (fun q acc => snd q + acc) 0 l - cm) * 100000000000000 <=? m1 * cm)%Z &&
           moments_loop k (m1 + 1)%Z c (cm * c)%Z (map (fun q => (fst q, fst q * snd q)%Z) l)
  end.
Definition moments_okb (l : qrule) : bool :=
  match l with
  | [] => false
  | q :: _ => let c := xO (Qden (fst q)) in
      match numerators c l with
      | None => false
      | Some zl => moments_loop (2 * length l) 1%Z (Z.pos c) (Z.pos c) zl &&
          forallb (fun z => (0 <? fst z)%Z && (fst z <? Z.pos c)%Z && (0 <? snd z)%Z) zl
      end
  end.

Definition moment (r : rule) (m : nat) : R := rsum (map (fun q => snd q * fst q ^ m) r).
Definition zmoment (zl : list (Z * Z)) (m : nat) : R := rsum (map (fun z => IZR (snd z) * IZR (fst z) ^ m) zl).

Lemma zfold_rsum (l : list (Z * Z)) : IZR (fold_right (fun q acc => snd q + acc)%Z 0%Z l) = rsum (map (fun q => IZR (snd q)) l).
Proof. induction l as [|a l IH]; cbn [fold_right map rsum]; [reflexivity|]. rewrite plus_IZR, IH. reflexivity. Qed.
Lemma moments_loop_ok fuel : forall m c l0 l, (0 < c)%Z ->
  map (fun q => IZR (snd q)) l = map (fun q => IZR (snd q) * IZR (fst q) ^ m) l0 -> map fst l = map fst l0 ->
  moments_loop fuel (Z.of_nat m + 1) c (c ^ (Z.of_nat m + 1)) l = true ->
  forall k, (m <= k < m + fuel)%nat -> Rabs (zmoment l0 k / IZR c ^ (k + 1) - / INR (k + 1)) <= rtol.
Proof.
  induction fuel as [|fuel IH]; intros m c l0 l Hc Hl Hf H k Hk; [lia|].
  cbn [moments_loop] in H. apply andb_true_iff in H. destruct H as (H1 & H2).
  destruct (Nat.eq_dec k m) as [->|Hne].
  - apply Z.leb_le in H1. apply IZR_le in H1. rewrite !mult_IZR, abs_IZR, minus_IZR, mult_IZR, zfold_rsum, Hl in H1. fold (zmoment l0 m) in H1.
    assert (Ec : IZR (c ^ (Z.of_nat m + 1)) = IZR c ^ (m + 1)).
    { rewrite pow_IZR. f_equal. f_equal. lia. }
    assert (Em : IZR (Z.of_nat m + 1) = INR (m + 1)) by (rewrite INR_IZR_INZ; f_equal; lia).
    rewrite Ec, Em in H1.
    assert (Pc : 0 < IZR c ^ (m + 1)) by (apply pow_lt, IZR_lt; assumption).
    assert (Pm : 0 < INR (m + 1)) by (apply lt_0_INR; lia).
    set (C := IZR c ^ (m + 1)) in *. set (M := INR (m + 1)) in *. set (z := zmoment l0 m) in *.
    replace (z / C - / M) with ((M * z - C) * / (M * C)) by (field; lra).
    assert (PMC : 0 < / (M * C)) by (apply Rinv_0_lt_compat, Rmult_lt_0_compat; assumption).
    rewrite Rabs_mult, (Rabs_right (/ (M * C))) by lra.
    assert (E : M * C * / (M * C) = 1) by (apply Rinv_r; apply Rgt_not_eq, Rmult_lt_0_compat; assumption).
    unfold rtol. apply (Rmult_le_reg_r (10 ^ 14)); [apply pow_lt; lra|]. rewrite Rinv_l by (apply pow_nonzero; lra).
    replace (10 ^ 14) with 100000000000000 by (simpl; ring). nra.
  - apply (IH (S m) c l0 (map (fun q => (fst q, fst q * snd q)%Z) l) Hc).
    + rewrite map_map. cbn [fst snd]. clear - Hl Hf. revert l0 Hl Hf. induction l as [|a l IH]; intros [|b l0] Hl Hf; try discriminate; [reflexivity|].
      cbn [map] in Hl, Hf |- *. injection Hl as Hl1 Hl2. injection Hf as Hf1 Hf2. f_equal; [|apply IH; assumption].
      rewrite mult_IZR, Hl1, Hf1. cbn [pow]. ring.
    + rewrite map_map. exact Hf.
    + replace (Z.of_nat (S m) + 1)%Z with (Z.of_nat m + 1 + 1)%Z by lia. rewrite (Z.pow_add_r c (Z.of_nat m + 1) 1), Z.pow_1_r by lia. exact H2.
    + lia.
Qed.

Lemma near_real c q z : near c q z -> Q2R (fst q) = IZR (fst z) / IZR (Z.pos c) /\ Q2R (snd q) = IZR (snd z) / IZR (Z.pos c).
Proof. intros (A & B). apply Qeq_eqR in A, B. rewrite A, B. unfold over, Q2R. cbn [Qnum Qden]. split; reflexivity. Qed.
Lemma moment_num c l zl m : Forall2 (near c) l zl -> moment (real_rule l) m = zmoment zl m / IZR (Z.pos c) ^ (m + 1).
Proof.
  intros H. assert (Pc : IZR (Z.pos c) <> 0) by (apply not_0_IZR; lia).
  unfold moment, zmoment, real_rule. rewrite map_map. cbn [fst snd].
  induction H as [|q z l zl Hn H IH]; cbn [map rsum fold_right]; [unfold Rdiv; ring|].
  apply near_real in Hn. destruct Hn as (-> & ->). unfold rsum in IH. rewrite IH. rewrite Nat.add_comm. cbn [Nat.add pow].
  unfold Rdiv. rewrite Rpow_mult_distr, pow_inv. field. split; [apply pow_nonzero|]; assumption.
Qed.

(** what is checked about a row *)
Record row_ok (l : qrule) : Prop := {
  row_moments : forall m, (m < 2 * length l)%nat -> Rabs (moment (real_rule l) m - / INR (m + 1)) <= rtol;
  row_points : forall q, In q (real_rule l) -> 0 < fst q < 1 /\ 0 < snd q
}.
Lemma moments_ok l : moments_okb l = true -> row_ok l.
Proof.
  unfold moments_okb. destruct l as [|q0 l0] eqn:El; [discriminate|]. rewrite <- El. set (c := xO (Qden (fst q0))). cbv zeta.
  destruct (numerators c l) as [zl|] eqn:En; [|discriminate]. apply numerators_ok in En.
  rewrite andb_true_iff, forallb_forall. intros (H1 & H2). split.
  - intros m Hm. rewrite (moment_num c l zl m En). apply (moments_loop_ok (2 * length l) 0 (Z.pos c) zl zl); [lia| |reflexivity|change (Z.of_nat 0 + 1)%Z with 1%Z; rewrite Z.pow_1_r; exact H1|lia].
    apply map_ext. intros a. simpl. ring.
  - intros q Hq. unfold real_rule in Hq. apply in_map_iff in Hq. destruct Hq as (q' & <- & Hq'). cbn [fst snd].
    destruct (near_in _ _ _ _ En Hq') as (z & Hz & Hn). apply near_real in Hn. destruct Hn as (-> & ->).
    specialize (H2 z Hz). rewrite !andb_true_iff, !Z.ltb_lt in H2. destruct H2 as ((A & B) & C). apply IZR_lt in A, B, C.
    assert (Pc : 0 < IZR (Z.pos c)) by lra.
    split; [split|].
    + apply Rdiv_lt_0_compat; assumption.
    + apply (Rmult_lt_reg_r (IZR (Z.pos c))); [assumption|]. unfold Rdiv. rewrite Rmult_assoc, Rinv_l by lra. lra.
    + apply Rdiv_lt_0_compat; assumption.
Qed.

Lemma table_ok : forallb moments_okb gauss_legendre = true.
Proof. vm_compute. reflexivity. Qed.
Lemma table_lengths : map (@length (Q * Q)) GaussTable.gauss_legendre = seq 1 10.
Proof. reflexivity. Qed.

Lemma get_gauss_ok d meth l : get_gauss d meth = Some l ->
  row_ok l /\ length l = match meth with Gauss => d + 1 | GaussReduced1 => d | GaussReduced2 => d - 1 end%nat.
Proof.
  intros H. assert (exists j, nth_error gauss_legendre j = Some l /\ (j + 1 = match meth with Gauss => d + 1 | GaussReduced1 => d | GaussReduced2 => d - 1 end)%nat) as (j & Hj & Ej).
  { unfold get_gauss in H. destruct meth.
    - exists d. auto.
    - destruct (Nat.ltb_spec d 1); [discriminate|]. exists (d - 1)%nat. split; [assumption|lia].
    - destruct (Nat.ltb_spec d 2); [discriminate|]. exists (d - 2)%nat. split; [assumption|lia]. }
  split.
  - apply moments_ok. pose proof table_ok as T. rewrite forallb_forall in T. apply T. eapply nth_error_In; eassumption.
  - rewrite <- Ej. pose proof (map_nth_error (@length (Q * Q)) j gauss_legendre Hj) as K. rewrite table_lengths in K.
    assert (Hlt : (j < 10)%nat) by (apply nth_error_Some in K || (assert (nth_error (seq 1 10) j <> None) as K' by congruence; apply nth_error_Some in K'; rewrite seq_length in K'; exact K')).
    assert (nth_error (seq 1 10) j = Some (1 + j)%nat) as E.
    { rewrite (nth_error_nth' _ 0%nat) by (rewrite seq_length; exact Hlt). rewrite seq_nth by exact Hlt. reflexivity. }
    rewrite E in K. injection K as K. lia.
Qed.

(** ** one direction: monomials on an interval *)
Lemma sum_const_mult n f c : c * sum_f_R0 f n = sum_f_R0 (fun i => c * f i) n.
Proof. induction n; simpl; [reflexivity|]. rewrite <- IHn. ring. Qed.
Lemma binom_shift n i : (i <= n)%nat -> C n i * / INR (i + 1) = C (S n) (S i) * / INR (S n).
Proof.
  intros H. unfold C. replace (S n - S i)%nat with (n - i)%nat by lia.
  change (fact (S n)) with (S n * fact n)%nat. change (fact (S i)) with (S i * fact i)%nat. rewrite !mult_INR.
  replace (i + 1)%nat with (S i) by lia.
  assert (N1 : INR (S n) <> 0) by (apply not_0_INR; lia). assert (N2 : INR (S i) <> 0) by (apply not_0_INR; lia).
  pose proof (INR_fact_neq_0 i) as N3. pose proof (INR_fact_neq_0 (n - i)) as N4.
  set (A := INR (S n)) in *. set (B := INR (S i)) in *. set (D := INR (fact i)) in *. set (E := INR (fact (n - i))) in *. clearbody A B D E.
  field. repeat split; assumption.
Qed.
Lemma shifted_power a l t n : (a + l * t) ^ n = sum_f_R0 (fun i => C n i * l ^ i * a ^ (n - i) * t ^ i) n.
Proof.
  rewrite Rplus_comm, binomial. apply sum_eq. intros i Hi. rewrite Rpow_mult_distr. ring.
Qed.
Lemma power_integral a l n :
  sum_f_R0 (fun i => C n i * l ^ i * a ^ (n - i) * / INR (i + 1)) n * l = ((a + l) ^ (n + 1) - a ^ (n + 1)) / INR (n + 1).
Proof.
  replace (n + 1)%nat with (S n) by lia.
  assert (Hn : INR (S n) <> 0) by (apply not_0_INR; lia).
  rewrite (Rplus_comm a l), binomial. rewrite (decomp_sum _ (S n)) by lia. simpl pred.
  replace (C (S n) 0 * l ^ 0 * a ^ (S n - 0)) with (a ^ S n) by (unfold C; rewrite !Nat.sub_0_r; change (fact 0) with 1%nat; simpl INR at 2; simpl pow at 2; field; apply INR_fact_neq_0).
  assert (E : sum_f_R0 (fun i => C (S n) (S i) * l ^ S i * a ^ (S n - S i)) n = INR (S n) * (sum_f_R0 (fun i => C n i * l ^ i * a ^ (n - i) * / INR (i + 1)) n * l)).
  { rewrite (Rmult_comm _ l), sum_const_mult, sum_const_mult. apply sum_eq. intros i Hi.
    replace (INR (S n) * (l * (C n i * l ^ i * a ^ (n - i) * / INR (i + 1)))) with (INR (S n) * l * l ^ i * a ^ (n - i) * (C n i * / INR (i + 1))) by ring.
    rewrite binom_shift by assumption. replace (S n - S i)%nat with (n - i)%nat by lia. simpl pow. field. assumption. }
  rewrite E. field. assumption.
Qed.
Lemma C_nonneg n i : 0 <= C n i.
Proof.
  unfold C. apply Rmult_le_pos; [apply pos_INR|]. left. apply Rinv_0_lt_compat. apply Rmult_lt_0_compat; apply INR_fact_lt_0.
Qed.

(** the rule on the interval of length l starting at a, applied to x^n *)
Definition applied (r : rule) (a l : R) (n : nat) : R := rsum (map (fun q => snd q * l * (a + l * fst q) ^ n) r).
Definition mono_integral (a l : R) (n : nat) : R := ((a + l) ^ (n + 1) - a ^ (n + 1)) / INR (n + 1).
Definition mono_bound (a l : R) (n : nat) : R := l * (Rabs a + l) ^ n.

Lemma rsum_sum (r : rule) (f : R * R -> nat -> R) n :
  rsum (map (fun q => sum_f_R0 (f q) n) r) = sum_f_R0 (fun i => rsum (map (fun q => f q i) r)) n.
Proof.
  induction r as [|q r IH]; cbn [map rsum fold_right].
  - symmetry. assert (E : forall k, sum_f_R0 (fun _ => 0) k = 0) by (induction k; simpl; lra). apply E.
  - unfold rsum in IH. rewrite IH, <- plus_sum. reflexivity.
Qed.
Lemma applied_moments r a l n : applied r a l n = sum_f_R0 (fun i => C n i * l ^ i * a ^ (n - i) * moment r i) n * l.
Proof.
  unfold applied. rewrite Rmult_comm, sum_const_mult.
  rewrite (map_ext _ (fun q => sum_f_R0 (fun i => snd q * l * (C n i * l ^ i * a ^ (n - i) * fst q ^ i)) n)).
  2:{ intros q. rewrite shifted_power, sum_const_mult. reflexivity. }
  rewrite rsum_sum. apply sum_eq. intros i Hi. unfold moment.
  induction r as [|q r IH]; cbn [map rsum fold_right]; [ring|]. unfold rsum in IH. rewrite IH. ring.
Qed.
Lemma applied_error l0 a l n : row_ok l0 -> 0 <= l -> (n < 2 * length l0)%nat ->
  Rabs (applied (real_rule l0) a l n - mono_integral a l n) <= rtol * mono_bound a l n.
Proof.
  intros [Hm _] Hl Hn. unfold mono_integral. rewrite <- power_integral, applied_moments.
  rewrite <- Rmult_minus_distr_r, <- minus_sum, Rabs_mult, (Rabs_right l) by lra. unfold mono_bound.
  replace (rtol * (l * (Rabs a + l) ^ n)) with (rtol * (Rabs a + l) ^ n * l) by ring. apply Rmult_le_compat_r; [assumption|].
  eapply Rle_trans; [apply sum_f_R0_triangle|].
  replace (rtol * (Rabs a + l) ^ n) with (sum_f_R0 (fun i => rtol * (C n i * l ^ i * Rabs a ^ (n - i))) n).
  2:{ rewrite <- sum_const_mult. rewrite (Rplus_comm (Rabs a)), binomial. reflexivity. }
  apply sum_Rle. intros i Hi.
  replace (C n i * l ^ i * a ^ (n - i) * moment (real_rule l0) i - C n i * l ^ i * a ^ (n - i) * / INR (i + 1))
    with (C n i * l ^ i * a ^ (n - i) * (moment (real_rule l0) i - / INR (i + 1))) by ring.
  rewrite !Rabs_mult, (Rabs_right (C n i)) by (apply Rle_ge, C_nonneg). rewrite (Rabs_right (l ^ i)) by (apply Rle_ge, pow_le; assumption).
  rewrite <- RPow_abs. rewrite (Rmult_comm rtol). apply Rmult_le_compat_l.
  - apply Rmult_le_pos; [apply Rmult_le_pos; [apply C_nonneg|apply pow_le; assumption]|apply pow_le, Rabs_pos].
  - apply Hm. lia.
Qed.
Lemma mono_integral_bound a l n : 0 <= l -> Rabs (mono_integral a l n) <= mono_bound a l n.
Proof.
  intros Hl. unfold mono_integral. rewrite <- power_integral, Rabs_mult, (Rabs_right l) by lra. unfold mono_bound. rewrite (Rmult_comm l).
  apply Rmult_le_compat_r; [assumption|]. eapply Rle_trans; [apply sum_f_R0_triangle|].
  rewrite (Rplus_comm (Rabs a)), binomial. apply sum_Rle. intros i Hi.
  rewrite !Rabs_mult, (Rabs_right (C n i)) by (apply Rle_ge, C_nonneg). rewrite (Rabs_right (l ^ i)) by (apply Rle_ge, pow_le; assumption).
  rewrite <- RPow_abs. rewrite <- (Rmult_1_r (C n i * l ^ i * Rabs a ^ (n - i))) at 2. apply Rmult_le_compat_l.
  - apply Rmult_le_pos; [apply Rmult_le_pos; [apply C_nonneg|apply pow_le; assumption]|apply pow_le, Rabs_pos].
  - assert (0 < INR (i + 1)) by (apply lt_0_INR; lia). rewrite Rabs_right by (left; apply Rinv_0_lt_compat; assumption).
    rewrite <- Rinv_1. apply Rinv_le_contravar; [lra|]. change 1 with (INR 1). apply le_INR. lia.
Qed.

(** ** three directions *)
Lemma rsum_map_mult {A} c (f : A -> R) (l : list A) : rsum (map (fun x => c * f x) l) = c * rsum (map f l).
Proof. induction l as [|a l IH]; cbn [map rsum fold_right]; [ring|]. unfold rsum in IH. rewrite IH. ring. Qed.
Lemma rsum_flat_map {A B} (f : A -> list B) (g : B -> R) (l : list A) : rsum (map g (flat_map f l)) = rsum (map (fun a => rsum (map g (f a))) l).
Proof.
  induction l as [|a l IH]; cbn [flat_map map]; [reflexivity|]. rewrite map_app, rsum_app, IH. reflexivity.
Qed.
Lemma rsum_ext {A} (f g : A -> R) (l : list A) : (forall x, f x = g x) -> rsum (map f l) = rsum (map g l).
Proof. intros H. f_equal. apply map_ext. assumption. Qed.

Definition mono (i j k : nat) (p : pt) : R := px p ^ i * py p ^ j * pz p ^ k.
Lemma tensor_applied lo up u v w i j k :
  rsum (map (fun q => ip_weight q * mono i j k (ip_pos q)) (assemble_loops lo up u v w)) =
  applied u (px lo) (Rabs (px up - px lo)) i * applied v (py lo) (Rabs (py up - py lo)) j * applied w (pz lo) (Rabs (pz up - pz lo)) k.
Proof.
  unfold assemble_loops. set (lu := Rabs (px up - px lo)). set (lv := Rabs (py up - py lo)). set (lw := Rabs (pz up - pz lo)).
  rewrite rsum_flat_map.
  rewrite (rsum_ext _ (fun a => (applied v (py lo) lv j * applied w (pz lo) lw k) * (snd a * lu * (px lo + lu * fst a) ^ i))).
  - rewrite rsum_map_mult. fold (applied u (px lo) lu i). ring.
  - intros a. rewrite rsum_flat_map.
    rewrite (rsum_ext _ (fun b => (snd a * lu * (px lo + lu * fst a) ^ i * applied w (pz lo) lw k) * (snd b * lv * (py lo + lv * fst b) ^ j))).
    + rewrite rsum_map_mult. fold (applied v (py lo) lv j). ring.
    + intros b. rewrite map_map. cbn [ip_weight ip_pos]. unfold mono. cbn [px py pz].
      rewrite (rsum_ext _ (fun c => (snd a * lu * (px lo + lu * fst a) ^ i * (snd b * lv * (py lo + lv * fst b) ^ j)) * (snd c * lw * (pz lo + lw * fst c) ^ k))).
      * rewrite rsum_map_mult. fold (applied w (pz lo) lw k). ring.
      * intros c. ring.
Qed.

Lemma product_error s1 s2 s3 i1 i2 i3 b1 b2 b3 t : 0 <= t <= / 10 ->
  Rabs (s1 - i1) <= t * b1 -> Rabs (s2 - i2) <= t * b2 -> Rabs (s3 - i3) <= t * b3 ->
  Rabs i1 <= b1 -> Rabs i2 <= b2 -> Rabs i3 <= b3 ->
  Rabs (s1 * s2 * s3 - i1 * i2 * i3) <= 4 * t * (b1 * b2 * b3).
Proof.
  intros Ht H1 H2 H3 B1 B2 B3.
  set (d1 := s1 - i1) in *. set (d2 := s2 - i2) in *. set (d3 := s3 - i3) in *.
  replace s1 with (i1 + d1) by (unfold d1; ring). replace s2 with (i2 + d2) by (unfold d2; ring). replace s3 with (i3 + d3) by (unfold d3; ring).
  clearbody d1 d2 d3.
  pose proof (Rabs_pos i1). pose proof (Rabs_pos i2). pose proof (Rabs_pos i3). pose proof (Rabs_pos d1). pose proof (Rabs_pos d2). pose proof (Rabs_pos d3).
  assert (P12 : Rabs (i1 * d2) <= t * (b1 * b2)) by (rewrite Rabs_mult; apply Rle_trans with (b1 * (t * b2)); [apply Rmult_le_compat; lra|right; ring]).
  assert (Q12 : Rabs (d1 * i2) <= t * (b1 * b2)) by (rewrite Rabs_mult; apply Rle_trans with (t * b1 * b2); [apply Rmult_le_compat; lra|right; ring]).
  assert (R12 : Rabs (d1 * d2) <= t * t * (b1 * b2)) by (rewrite Rabs_mult; apply Rle_trans with (t * b1 * (t * b2)); [apply Rmult_le_compat; lra|right; ring]).
  assert (N12 : 0 <= b1 * b2) by (apply Rmult_le_pos; lra).
  assert (E12 : Rabs (i1 * d2 + d1 * i2 + d1 * d2) <= (2 * t + t * t) * (b1 * b2)).
  { eapply Rle_trans; [apply Rabs_triang|]. pose proof (Rabs_triang (i1 * d2) (d1 * i2)). lra. }
  assert (I12 : Rabs (i1 * i2) <= b1 * b2) by (rewrite Rabs_mult; apply Rmult_le_compat; lra).
  set (e := i1 * d2 + d1 * i2 + d1 * d2) in *.
  replace ((i1 + d1) * (i2 + d2) * (i3 + d3) - i1 * i2 * i3) with (i1 * i2 * d3 + e * i3 + e * d3) by (unfold e; ring).
  clearbody e. set (b := b1 * b2) in *. pose proof (Rabs_pos (i1 * i2)). pose proof (Rabs_pos e).
  assert (A : Rabs (i1 * i2 * d3) <= t * (b * b3)) by (rewrite Rabs_mult; apply Rle_trans with (b * (t * b3)); [apply Rmult_le_compat; lra|right; ring]).
  assert (B : Rabs (e * i3) <= (2 * t + t * t) * (b * b3)) by (rewrite Rabs_mult; apply Rle_trans with ((2 * t + t * t) * b * b3); [apply Rmult_le_compat; lra|right; ring]).
  assert (CC : Rabs (e * d3) <= (2 * t + t * t) * t * (b * b3)) by (rewrite Rabs_mult; apply Rle_trans with ((2 * t + t * t) * b * (t * b3)); [apply Rmult_le_compat; lra|right; ring]).
  assert (N : 0 <= b * b3) by (apply Rmult_le_pos; lra).
  eapply Rle_trans; [apply Rabs_triang|]. pose proof (Rabs_triang (i1 * i2 * d3) (e * i3)).
  assert (T : t + (2 * t + t * t) + (2 * t + t * t) * t <= 4 * t) by nra.
  apply Rle_trans with ((t + (2 * t + t * t) + (2 * t + t * t) * t) * (b * b3)); [lra|]. apply Rmult_le_compat_r; assumption.
Qed.
