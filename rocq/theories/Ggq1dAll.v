(** GGQ rules: every number of knot spans, from one check per class and the checks of the short rules. *)
From Coq Require Import Arith List Bool QArith Qabs Qround Lia Lqa Sorting.Sorted.
From Verif Require Import Ggq1dModel Ggq1dSpec Ggq1dProofs Ggq1dClasses.
Import ListNotations.
Local Open Scope nat_scope.

(** ** a decision procedure for [rule_ok], on numerators over a common denominator *)
Definition numerator (c : positive) (q : Q) : option Z :=
  if (Qden q =? c)%positive then Some (Qnum q)
  else if (xO (Qden q) =? c)%positive then Some (2 * Qnum q)%Z
  else if (Z.pos c / Z.pos (Qden q) * Z.pos (Qden q) =? Z.pos c)%Z then Some (Qnum q * (Z.pos c / Z.pos (Qden q)))%Z else None.
Fixpoint numerators (c : positive) (l : qrule) : option (list (Z * Z)) :=
  match l with
  | [] => Some []
  | q :: l => match numerator c (fst q), numerator c (snd q), numerators c l with
              | Some x, Some w, Some zl => Some ((x, w) :: zl)
              | _, _, _ => None
              end
  end.
Definition over (c : positive) (z : Z) : Q := z # c.
Lemma numerator_ok c q z : numerator c q = Some z -> (q == over c z)%Q.
Proof.
  unfold numerator, over. intros H. unfold Qeq. cbn [Qnum Qden].
  destruct (Pos.eqb_spec (Qden q) c) as [E|_]; [injection H as <-; rewrite E; reflexivity|].
  destruct (Pos.eqb_spec (xO (Qden q)) c) as [E|_]; [assert (Hz : z = (2 * Qnum q)%Z) by congruence; rewrite Hz, <- E, Pos2Z.inj_xO; ring|].
  destruct (Z.eqb_spec (Z.pos c / Z.pos (Qden q) * Z.pos (Qden q)) (Z.pos c)) as [E|_]; [|discriminate].
  assert (Hz : z = (Qnum q * (Z.pos c / Z.pos (Qden q)))%Z) by congruence. rewrite Hz. rewrite <- E at 1. ring.
Qed.
Definition near (c : positive) (q : Q * Q) (z : Z * Z) : Prop := (fst q == over c (fst z) /\ snd q == over c (snd z))%Q.
Lemma numerators_ok c l : forall zl, numerators c l = Some zl -> Forall2 (near c) l zl.
Proof.
  induction l as [|q l IH]; intros zl H; cbn [numerators] in H; [injection H as <-; constructor|].
  destruct (numerator c (fst q)) as [x|] eqn:Ex; [|discriminate]. destruct (numerator c (snd q)) as [w|] eqn:Ew; [|discriminate].
  destruct (numerators c l) as [zl'|]; [|discriminate]. injection H as <-. constructor; [|apply IH; reflexivity].
  split; apply numerator_ok; assumption.
Qed.

Fixpoint zsorted (l : list (Z * Z)) : bool :=
  match l with
  | [] => true
  | a :: l' => match l' with [] => true | b :: _ => (fst a <? fst b)%Z end && zsorted l'
  end.
Definition small (c : Z) (z : Z) : bool := (Z.abs z * 100000000000000 <=? c)%Z.
Fixpoint zsym (c : Z) (l l' : list (Z * Z)) : bool :=
  match l, l' with
  | [], [] => true
  | a :: l, b :: l' => small c (fst a + fst b - c) && small c (snd a - snd b) && zsym c l l'
  | _, _ => false
  end.
Definition zsum (l : list (Z * Z)) : Z := fold_right (fun q acc => snd q + acc)%Z 0%Z l.
Definition rule_okb (m : nat) (l : qrule) : bool :=
  match l with
  | [] => false
  | q :: _ =>
      let c := xO (Qden (fst q)) in let C := Z.pos c in
      match numerators c l with
      | None => false
      | Some zl => (length l =? m) && zsorted zl && forallb (fun z => (0 <? fst z)%Z && (fst z <? C)%Z && (0 <? snd z)%Z) zl &&
                   small C (zsum zl - C) && zsym C zl (rev zl)
      end
  end.

Lemma over_lt c a b : (a < b)%Z -> (over c a < over c b)%Q.
Proof. intros H. unfold over, Qlt. cbn [Qnum Qden]. nia. Qed.
Lemma over_add c a b : (over c a + over c b == over c (a + b))%Q.
Proof. unfold over, Qeq, Qplus. cbn [Qnum Qden]. lia. Qed.
Lemma over_sub c a b : (over c a - over c b == over c (a - b))%Q.
Proof. unfold over, Qeq, Qminus, Qopp, Qplus. cbn [Qnum Qden]. lia. Qed.
Lemma over_1 c : (over c (Z.pos c) == 1)%Q.
Proof. unfold over, Qeq. cbn [Qnum Qden]. lia. Qed.
Lemma over_0 c : (over c 0 == 0)%Q.
Proof. unfold over, Qeq. cbn [Qnum Qden]. lia. Qed.
Lemma small_ok c z : small (Z.pos c) z = true -> (Qabs (over c z) <= tol)%Q.
Proof. unfold small, over, tol. rewrite Z.leb_le. unfold Qle, Qabs. cbn [Qnum Qden]. lia. Qed.

Lemma near_in c l zl q : Forall2 (near c) l zl -> In q l -> exists z, In z zl /\ near c q z.
Proof.
  induction 1 as [|x y l zl Hxy H IH]; intros []; [subst; exists y; simpl; auto|]. destruct (IH H0) as (b & Hb & Hs). exists b. simpl; auto.
Qed.
Lemma near_sorted c l zl : Forall2 (near c) l zl -> zsorted zl = true -> StronglySorted xlt l.
Proof.
  intros H Hs. apply Sorted_StronglySorted. { intros x y z. unfold xlt. apply Qlt_trans. }
  induction H as [|x y l zl (Hx & _) H IH]; [constructor|]. cbn [zsorted] in Hs. apply andb_true_iff in Hs. destruct Hs as (H1 & H2).
  constructor; [auto|]. inversion H as [|x' y' l' zl' (Hx' & _) H']; subst; constructor. unfold xlt. rewrite Hx, Hx'. apply over_lt. apply Z.ltb_lt; assumption.
Qed.
Lemma near_sum c l zl : Forall2 (near c) l zl -> (wsum l == over c (zsum zl))%Q.
Proof.
  induction 1 as [|x y l zl (_ & Hx) H IH]; [rewrite over_0; reflexivity|].
  change (wsum (x :: l)) with (snd x + wsum l)%Q. change (zsum (y :: zl)) with (snd y + zsum zl)%Z. rewrite IH, Hx, over_add. reflexivity.
Qed.
Lemma near_sym c l zl : Forall2 (near c) l zl -> forall l' zl', Forall2 (near c) l' zl' -> zsym (Z.pos c) zl zl' = true ->
  Forall2 (fun a b => Qabs (fst a + fst b - 1) <= tol /\ Qabs (snd a - snd b) <= tol)%Q l l'.
Proof.
  induction 1 as [|x y l zl (Hx & Hw) H IH]; intros l' zl' H' Hs; inversion H' as [|x' y' l2 zl2 (Hx' & Hw') H2]; subst; cbn [zsym] in Hs; try discriminate; constructor.
  - rewrite !andb_true_iff in Hs. destruct Hs as ((A & B) & _). apply small_ok in A. apply small_ok in B. split.
    + rewrite Hx, Hx', over_add, <- (over_1 c), over_sub. assumption.
    + rewrite Hw, Hw', over_sub. assumption.
  - apply (IH _ zl2); [assumption|]. rewrite !andb_true_iff in Hs. tauto.
Qed.
Lemma near_rev c l zl : Forall2 (near c) l zl -> Forall2 (near c) (rev l) (rev zl).
Proof. induction 1; simpl; [constructor|]. apply Forall2_app; [assumption|]. repeat constructor; apply H. Qed.

Lemma rule_okb_ok m l : rule_okb m l = true -> rule_ok m l.
Proof.
  unfold rule_okb. destruct l as [|q0 l0] eqn:El; [discriminate|]. rewrite <- El. set (c := xO (Qden (fst q0))). cbv zeta.
  destruct (numerators c l) as [zl|] eqn:En; [|discriminate]. apply numerators_ok in En.
  rewrite !andb_true_iff. intros ((((A & B) & C) & D) & E). rewrite forallb_forall in C.
  assert (C' : forall q, In q l -> (0 < fst q /\ fst q < 1 /\ 0 < snd q)%Q).
  { intros q Hq. destruct (near_in _ _ _ _ En Hq) as (z & Hz & (N1 & N2)). specialize (C z Hz). rewrite !andb_true_iff, !Z.ltb_lt in C.
    destruct C as ((C1 & C2) & C3). apply (over_lt c) in C1, C2, C3. rewrite over_0 in C1, C3. rewrite over_1 in C2.
    rewrite N1, N2. split; [|split]; assumption. }
  split.
  - apply Nat.eqb_eq; assumption.
  - eapply near_sorted; eassumption.
  - apply Forall_forall. intros q Hq. specialize (C' q Hq). tauto.
  - apply Forall_forall. intros q Hq. specialize (C' q Hq). tauto.
  - rewrite (near_sum _ _ _ En), <- (over_1 c), over_sub. apply small_ok; assumption.
  - eapply near_sym; [exact En|apply near_rev; exact En|assumption].
Qed.

(** ** short rules *)
Definition points_of (d e : nat) (meth : ggq) : nat := let '(p, r) := space_dimension d meth in ceil_half (num_dofs p r e).
Definition short_okb (d e : nat) (meth : ggq) : bool :=
  match get_ggq d e meth with Some l => rule_okb (points_of d e meth) l | None => false end.

(** ** classes *)
Definition long_okb (d e0 : nat) (meth : ggq) : bool :=
  let '(p, r) := space_dimension d meth in
  let n := num_dofs p r e0 in
  let m := ceil_half n in
  match base_points d e0 meth with
  | Some [b0; b1; b2] =>
      match back_x b0, back_x b1 with
      | Some x0, Some x1 =>
          let L := ceil_nat x0 in let R := ceil_nat x1 in
          ((R =? 1) || (R =? 2)) && (R * (p - r) =? 2 * length b1) && (0 <? e0) &&
          (if 2 * m =? n then (2 * length b0 <? m) && class_okb b0 b1 [] e0 m L R
           else (2 * (length b0 + length b2) - 1 <? m) && class_okb b0 b1 b2 e0 m L R)
      | _, _ => false
      end
  | _ => false
  end.

Lemma num_dofs_add p r e k : 0 < e -> num_dofs p r (e + k) = num_dofs p r e + k * (p - r).
Proof. intros H. unfold num_dofs. replace (e + k - 1) with (e - 1 + k) by lia. nia. Qed.

Lemma long_sound d e0 meth : long_okb d e0 meth = true ->
  forall k, exists l, get_ggq d (e0 + 4 * k) meth = Some l /\ rule_ok (points_of d (e0 + 4 * k) meth) l.
Proof.
  intros H k. unfold long_okb in H. unfold get_ggq, points_of. destruct (space_dimension d meth) as (p, r) eqn:Esd.
  destruct (base_points d e0 meth) as [[|b0 [|b1 [|b2 [|? ?]]]]|] eqn:Eb; try discriminate.
  destruct (back_x b0) as [x0|] eqn:Ex0; [|discriminate]. destruct (back_x b1) as [x1|] eqn:Ex1; [|discriminate].
  set (L := ceil_nat x0) in *. set (R := ceil_nat x1) in *.
  rewrite !andb_true_iff in H. destruct H as (((HR & Hdim) & He0) & Hc).
  rewrite orb_true_iff, !Nat.eqb_eq in HR. apply Nat.eqb_eq in Hdim. apply Nat.ltb_lt in He0.
  assert (exists j, 4 * k = 2 * R * j) as (j & Hj). { destruct HR as [->| ->]; [exists (2 * k); lia|exists k; lia]. }
  rewrite Hj. assert (En : num_dofs p r (e0 + 2 * R * j) = num_dofs p r e0 + 2 * (2 * (length b1 * j))).
  { rewrite num_dofs_add by assumption. replace (2 * R * j * (p - r)) with (2 * j * (R * (p - r))) by lia. rewrite Hdim. lia. }
  assert (Em : ceil_half (num_dofs p r (e0 + 2 * R * j)) = ceil_half (num_dofs p r e0) + 2 * (length b1 * j)).
  { rewrite En. apply ceil_half_add. }
  assert (Eb' : base_points d (e0 + 2 * R * j) meth = base_points d e0 meth).
  { unfold base_points. rewrite Esd. rewrite Em.
    replace ((ceil_half (num_dofs p r e0) + 2 * (length b1 * j)) mod 2) with (ceil_half (num_dofs p r e0) mod 2)
      by (rewrite (Nat.mul_comm 2), Nat.mod_add by lia; reflexivity).
    replace ((e0 + 2 * R * j) mod 2) with (e0 mod 2)
      by (replace (2 * R * j) with (R * j * 2) by lia; rewrite Nat.mod_add by lia; reflexivity).
    reflexivity. }
  rewrite Eb', Eb, Em, En. set (m0 := ceil_half (num_dofs p r e0)) in *. set (n0 := num_dofs p r e0) in *.
  assert (Econd : (2 * (m0 + 2 * (length b1 * j)) =? n0 + 2 * (2 * (length b1 * j))) = (2 * m0 =? n0)).
  { apply eq_true_iff_eq. rewrite !Nat.eqb_eq. lia. }
  rewrite Econd. destruct (2 * m0 =? n0); apply andb_true_iff in Hc; destruct Hc as (Hc1 & Hc2); apply Nat.ltb_lt in Hc1.
  - destruct (Nat.ltb_spec (2 * length b0) (m0 + 2 * (length b1 * j))); [|lia].
    destruct (class_sound b0 b1 [] e0 m0 L R Hc2 x0 x1 Ex0 Ex1 eq_refl eq_refl j) as (l & El & Hl & Hok).
    rewrite El. exists (scale (e0 + 2 * R * j) l). split; [reflexivity|]. rewrite <- Hl. apply scale_ok; [lia|assumption].
  - destruct (Nat.ltb_spec (2 * (length b0 + length b2) - 1) (m0 + 2 * (length b1 * j))); [|lia].
    destruct (class_sound b0 b1 b2 e0 m0 L R Hc2 x0 x1 Ex0 Ex1 eq_refl eq_refl j) as (l & El & Hl & Hok).
    rewrite El. exists (scale (e0 + 2 * R * j) l). split; [reflexivity|]. rewrite <- Hl. apply scale_ok; [lia|assumption].
Qed.

Definition all_okb (start d : nat) (meth : ggq) : bool :=
  forallb (fun e => short_okb d e meth) (seq 1 (start - 1)) && forallb (fun e => long_okb d e meth) (seq start 4).

Lemma all_sound start d meth : all_okb start d meth = true ->
  forall e, 1 <= e -> exists l, get_ggq d e meth = Some l /\ rule_ok (points_of d e meth) l.
Proof.
  unfold all_okb. rewrite andb_true_iff, !forallb_forall. intros (H1 & H2) e He.
  destruct (Nat.lt_ge_cases e start) as [Hlt|Hge].
  - specialize (H1 e ltac:(apply in_seq; lia)). unfold short_okb in H1.
    destruct (get_ggq d e meth) as [l|]; [|discriminate]. exists l. split; [reflexivity|]. apply rule_okb_ok; assumption.
  - pose proof (Nat.div_mod (e - start) 4 ltac:(lia)) as Hd. pose proof (Nat.mod_upper_bound (e - start) 4 ltac:(lia)) as Hm.
    set (j := (e - start) mod 4) in *. set (k := (e - start) / 4) in *.
    replace e with (start + j + 4 * k) by lia. apply long_sound. apply H2. apply in_seq. lia.
Qed.


Definition all_ok (l : list (nat * nat)) (meth : ggq) : bool := forallb (fun sd => all_okb (fst sd) (snd sd) meth) l.
Lemma optimal_ok : all_ok [(25, 2); (26, 3); (43, 4)] Optimal = true.
Proof. vm_compute. reflexivity. Qed.
Lemma reduced1_ok : all_ok [(5, 2); (8, 3); (49, 4)] Reduced1 = true.
Proof. vm_compute. reflexivity. Qed.
Lemma reduced2_ok : all_ok [(32, 2); (26, 3); (48, 4)] Reduced2 = true.
Proof. vm_compute. reflexivity. Qed.

Lemma all_of s2 s3 s4 meth : all_ok [(s2, 2); (s3, 3); (s4, 4)] meth = true -> forall d e, 2 <= d <= 4 -> 1 <= e ->
  exists l, get_ggq d e meth = Some l /\ rule_ok (points_of d e meth) l.
Proof.
  unfold all_ok. rewrite forallb_forall. intros H d e Hd He.
  assert (d = 2 \/ d = 3 \/ d = 4) as [-> | [-> | ->]] by lia.
  - apply (all_sound s2); [|assumption]. apply (H (s2, 2)). left. reflexivity.
  - apply (all_sound s3); [|assumption]. apply (H (s3, 3)). right. left. reflexivity.
  - apply (all_sound s4); [|assumption]. apply (H (s4, 4)). right. right. left. reflexivity.
Qed.

Lemma all_rules d e meth : 2 <= d <= 4 -> 1 <= e ->
  exists l, get_ggq d e meth = Some l /\ rule_ok (points_of d e meth) l.
Proof.
  intros Hd He. destruct meth.
  - exact (all_of _ _ _ _ optimal_ok d e Hd He).
  - exact (all_of _ _ _ _ reduced1_ok d e Hd He).
  - exact (all_of _ _ _ _ reduced2_ok d e Hd He).
Qed.
