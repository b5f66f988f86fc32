(** GGQ rules: one computation per residue class of the number of knot spans settles all of them. *)
From Coq Require Import Arith List Bool QArith Qabs Qround Lia Lqa Sorting.Sorted.
From Verif Require Import Ggq1dModel Ggq1dSpec Ggq1dProofs.
Import ListNotations.
Local Open Scope nat_scope.

Definition qltb (a b : Q) : bool := negb (Qle_bool b a).
Lemma qltb_lt a b : qltb a b = true -> (a < b)%Q.
Proof. unfold qltb. rewrite negb_true_iff. intros H. apply Qnot_le_lt. intros H'. apply Qle_bool_iff in H'. congruence. Qed.
Fixpoint sortedb (l : qrule) : bool :=
  match l with
  | [] => true
  | a :: l' => match l' with [] => true | b :: _ => qltb (fst a) (fst b) end && sortedb l'
  end.
Lemma sortedb_ok l : sortedb l = true -> StronglySorted xlt l.
Proof.
  intros H. apply Sorted_StronglySorted. { intros x y z. unfold xlt. apply Qlt_trans. }
  induction l as [|a l IH]; [constructor|]. cbn [sortedb] in H. apply andb_true_iff in H. destruct H as (H1 & H2).
  constructor; [auto|]. destruct l; constructor. apply qltb_lt; assumption.
Qed.
(** sum with reduction, for fast evaluation *)
Definition rsumq (l : qrule) : Q := fold_right (fun q acc => Qred (snd q + acc)) 0%Q l.
Lemma rsumq_ok l : (rsumq l == wsum l)%Q.
Proof. unfold rsumq, wsum. induction l as [|a l IH]; cbn [fold_right]; [reflexivity|]. rewrite Qred_correct, IH. reflexivity. Qed.

Lemma nonempty_in {A} (l : list A) : length l > 0 -> exists t, In t l.
Proof. destruct l as [|t l]; simpl; [lia|]. intros _. exists t. left. reflexivity. Qed.
Definition zq : Q * Q := (0, 0)%Q.

Section Class.
Variables b0 b1 b2 : qrule.
Variables e0 m0 L Rt : nat.
Let m1 := length b0.
Let m2 := length b1.
Let m3 := length b2.
Let z0 := ceil_half m0.
Let zz0 := z0 - m3.
Let q0 := (zz0 - m1 - 1) / m2.
Let rem0 := (zz0 - m1 - 1) mod m2 + 1.
Let nb0 := (z0 - m1 + m2 - 1) / m2.
Let D0 := L + q0 * Rt.
Let T0 := shift (ofnat D0) (firstn rem0 b1) ++ shift (ofnat e0 / 2)%Q b2.
Let odd := m0 mod 2 =? 1.
Let Tx := if odd then removelast T0 else T0.
Let E0 := ofnat e0.

Definition class_okb : bool :=
  (0 <? e0) && (0 <? L) && (0 <? m2) && (m3 <=? z0) && (m1 <? zz0) && (m1 + nb0 * m2 <=? m0) &&
  forallb (fun q => qltb 0 (fst q) && qltb (fst q) (ofnat L) && qltb 0 (snd q)) b0 && sortedb b0 &&
  forallb (fun q => Qle_bool 0 (fst q) && qltb (fst q) (ofnat Rt) && qltb 0 (snd q)) b1 && sortedb b1 &&
  forallb (fun q => qltb 0 (snd q)) b2 &&
  sortedb T0 && forallb (fun q => Qle_bool (ofnat D0) (fst q) && Qle_bool (fst q + ofnat D0) E0 && qltb (fst q) E0) T0 &&
  forallb (fun a => forallb (fun b => qltb (fst a + fst b) E0) T0) Tx &&
  (if odd then Qle_bool (Qabs (2 * fst (last T0 zq) - E0)) (tol * E0) else true)%Q &&
  Qle_bool (Qabs (2 * (rsumq b0 + ofnat q0 * rsumq b1 + rsumq Tx) + (if odd then snd (last T0 zq) else 0) - E0)) (tol * E0)%Q &&
  Qle_bool (Qabs (rsumq b1 - ofnat Rt)) (tol * ofnat Rt)%Q.

Hypothesis Hok : class_okb = true.
Variables x0 x1 : Q.
Hypothesis Hx0 : back_x b0 = Some x0.
Hypothesis Hx1 : back_x b1 = Some x1.
Hypothesis HL : ceil_nat x0 = L.
Hypothesis HR : ceil_nat x1 = Rt.
Variable k : nat.
Let e := e0 + 2 * Rt * k.
Let m := m0 + 2 * (m2 * k).

Lemma ok_parts :
  ((0 < e0 /\ 0 < L) /\ 0 < m2 /\ m3 <= z0 /\ m1 < zz0 /\ m1 + nb0 * m2 <= m0) /\
  ((forall q, In q b0 -> (0 < fst q /\ fst q < ofnat L /\ 0 < snd q)%Q) /\ StronglySorted xlt b0 /\
   (forall q, In q b1 -> (0 <= fst q /\ fst q < ofnat Rt /\ 0 < snd q)%Q) /\ StronglySorted xlt b1 /\
   (forall q, In q b2 -> (0 < snd q)%Q)) /\
  (StronglySorted xlt T0 /\ (forall q, In q T0 -> (ofnat D0 <= fst q /\ fst q + ofnat D0 <= E0 /\ fst q < E0)%Q) /\
   (forall a b, In a Tx -> In b T0 -> (fst a + fst b < E0)%Q)) /\
  (odd = true -> (Qabs (2 * fst (last T0 zq) - E0) <= tol * E0)%Q) /\
  (Qabs (2 * (wsum b0 + ofnat q0 * wsum b1 + wsum Tx) + (if odd then snd (last T0 zq) else 0) - E0) <= tol * E0)%Q /\
  (Qabs (wsum b1 - ofnat Rt) <= tol * ofnat Rt)%Q.
Proof.
  pose proof Hok as H. unfold class_okb in H. rewrite !andb_true_iff in H.
  destruct H as ((((((((((((((((H1 & H0) & H2) & H3) & H4) & H5) & H6) & H7) & H8) & H9) & H10) & H11) & H12) & H13) & H14) & H15) & H16).
  rewrite Nat.ltb_lt in H1, H0, H2, H4. rewrite Nat.leb_le in H3, H5.
  split; [tauto|]. split; [split; [|split; [|split; [|split]]]|split; [split; [|split]|split; [|split]]].
  - intros q Hq. rewrite forallb_forall in H6. specialize (H6 q Hq). rewrite !andb_true_iff in H6. destruct H6 as ((A & B) & C).
    split; [|split]; apply qltb_lt; assumption.
  - apply sortedb_ok; assumption.
  - intros q Hq. rewrite forallb_forall in H8. specialize (H8 q Hq). rewrite !andb_true_iff in H8. destruct H8 as ((A & B) & C).
    apply Qle_bool_iff in A. split; [|split]; first [assumption|apply qltb_lt; assumption].
  - apply sortedb_ok; assumption.
  - intros q Hq. rewrite forallb_forall in H10. apply qltb_lt; auto.
  - apply sortedb_ok; assumption.
  - intros q Hq. rewrite forallb_forall in H12. specialize (H12 q Hq). rewrite !andb_true_iff in H12. destruct H12 as ((A & B) & C).
    apply Qle_bool_iff in A. apply Qle_bool_iff in B. split; [|split]; first [assumption|apply qltb_lt; assumption].
  - intros a b Ha Hb. rewrite forallb_forall in H13. specialize (H13 a Ha). rewrite forallb_forall in H13. apply qltb_lt; auto.
  - intros E. rewrite E in H14. apply Qle_bool_iff; assumption.
  - apply Qle_bool_iff in H15. rewrite !rsumq_ok in H15. assumption.
  - apply Qle_bool_iff in H16. rewrite rsumq_ok in H16. assumption.
Qed.

Let q := q0 + k.
Let Dk := L + q * Rt.
Let Dp := b0 ++ blocks L Rt b1 q.
Let Tk := firstn rem0 (shift (ofnat Dk) b1) ++ shift (ofnat e / 2)%Q b2.

Lemma Dk_eq : (ofnat Dk == ofnat D0 + ofnat (Rt * k))%Q.
Proof. unfold Dk, D0, q. rewrite <- ofnat_plus. replace (L + (q0 + k) * Rt) with (L + q0 * Rt + Rt * k) by nia. reflexivity. Qed.
Lemma e_eq : (ofnat e == E0 + 2 * ofnat (Rt * k))%Q.
Proof.
  unfold e, E0. rewrite ofnat_plus. replace (2 * Rt * k) with (Rt * k + Rt * k) by lia. rewrite ofnat_plus. ring.
Qed.

Definition shifted (a b : Q * Q) : Prop := (fst a == fst b + ofnat (Rt * k))%Q /\ snd a = snd b.
Lemma shift_rel c c' l : (c == c' + ofnat (Rt * k))%Q -> Forall2 shifted (shift c l) (shift c' l).
Proof.
  intros H. unfold shift. induction l as [|a l IH]; cbn [map]; constructor; [|assumption]. unfold shifted. cbn [fst snd]. split; [rewrite H; ring|reflexivity].
Qed.
Lemma Tk_rel : Forall2 shifted Tk T0.
Proof.
  unfold Tk, T0. rewrite firstn_shift. apply Forall2_app; apply shift_rel; [apply Dk_eq|]. rewrite e_eq. unfold E0. field.
Qed.
Lemma rel_in l l' a : Forall2 shifted l l' -> In a l -> exists b, In b l' /\ shifted a b.
Proof.
  induction 1 as [|x y l l' Hxy H IH]; intros []; [subst; exists y; simpl; auto|]. destruct (IH H0) as (b & Hb & Hs). exists b. simpl; auto.
Qed.
Lemma rel_sorted l l' : Forall2 shifted l l' -> StronglySorted xlt l' -> StronglySorted xlt l.
Proof.
  induction 1 as [|x y l l' (Hx & _) H IH]; intros Hs; constructor; inversion Hs; subst; [auto|].
  apply Forall_forall. intros a Ha. destruct (rel_in _ _ _ H Ha) as (b & Hb & (Hab & _)).
  rewrite Forall_forall in H3. specialize (H3 b Hb). unfold xlt in *. rewrite Hx, Hab. lra.
Qed.
Lemma rel_wsum l l' : Forall2 shifted l l' -> (wsum l == wsum l')%Q.
Proof. induction 1 as [|x y l l' (_ & Hx) H IH]; simpl; [reflexivity|]. rewrite Hx, IH. reflexivity. Qed.

Lemma blocks_sorted n : StronglySorted xlt (blocks L Rt b1 n) /\
  (forall x, In x (blocks L Rt b1 n) -> (ofnat L <= fst x /\ fst x < ofnat (L + n * Rt) /\ 0 < snd x)%Q).
Proof.
  destruct ok_parts as (_ & (_ & _ & P1 & S1 & _) & _).
  induction n as [|n (IH1 & IH2)]; [split; [constructor|intros x []]|].
  assert (Hb : forall x, In x (shift (ofnat (L + n * Rt)) b1) -> (ofnat (L + n * Rt) <= fst x /\ fst x < ofnat (L + S n * Rt) /\ 0 < snd x)%Q).
  { intros x Hx. apply in_shift in Hx. destruct Hx as (y & Hy & ->). cbn [fst snd]. destruct (P1 y Hy) as (A & B & C).
    split; [lra|]. split; [|assumption]. replace (L + S n * Rt) with (Rt + (L + n * Rt)) by lia. rewrite (ofnat_plus Rt). lra. }
  rewrite blocks_S. split.
  - apply SS_app. split; [assumption|]. split; [apply SS_shift; assumption|]. intros x y Hx Hy. apply IH2 in Hx. apply Hb in Hy. unfold xlt. lra.
  - intros x Hx. apply in_app_iff in Hx. destruct Hx as [Hx|Hx].
    + apply IH2 in Hx. assert (ofnat (L + n * Rt) <= ofnat (L + S n * Rt))%Q by (apply ofnat_le; lia). lra.
    + apply Hb in Hx. assert (ofnat L <= ofnat (L + n * Rt))%Q by (apply ofnat_le; lia). lra.
Qed.
Lemma blocks_wsum n : (wsum (blocks L Rt b1 n) == ofnat n * wsum b1)%Q.
Proof.
  induction n as [|n IH]; [simpl; unfold ofnat; simpl; ring|]. rewrite blocks_S, wsum_app, wsum_shift, IH.
  replace (S n) with (n + 1) by lia. rewrite ofnat_plus. unfold ofnat at 3. simpl. ring.
Qed.

Lemma Dp_ok : StronglySorted xlt Dp /\ (forall x, In x Dp -> (0 < fst x /\ fst x < ofnat Dk /\ 0 < snd x)%Q).
Proof.
  destruct ok_parts as (((_ & HL0) & _) & (P0 & S0 & _) & _). destruct (blocks_sorted q) as (B1 & B2). unfold Dp. split.
  - apply SS_app. split; [assumption|]. split; [assumption|]. intros x y Hx Hy. apply P0 in Hx. apply B2 in Hy. unfold xlt. lra.
  - intros x Hx. apply in_app_iff in Hx. fold Dk in B2. destruct Hx as [Hx|Hx].
    + apply P0 in Hx. assert (ofnat L <= ofnat Dk)%Q by (apply ofnat_le; unfold Dk; nia). lra.
    + apply B2 in Hx. assert (0 < ofnat L)%Q by (unfold ofnat; change 0%Q with (inject_Z 0); rewrite <- Zlt_Qlt; lia). lra.
Qed.

Lemma T_weight x : In x Tk -> (0 < snd x)%Q.
Proof.
  destruct ok_parts as (_ & (_ & _ & P1 & _ & P2) & _). unfold Tk. rewrite firstn_shift. intros Hx. apply in_app_iff in Hx.
  destruct Hx as [Hx|Hx]; apply in_shift in Hx; destruct Hx as (y & Hy & ->); cbn [snd].
  - apply P1. rewrite <- (firstn_skipn rem0 b1). apply in_app_iff. auto.
  - auto.
Qed.

Lemma in_removelast {A} (x : A) l : In x (removelast l) -> In x l.
Proof. induction l as [|a l IH]; [intros []|]. destruct l as [|b l]; [intros []|]. change (removelast (a :: b :: l)) with (a :: removelast (b :: l)). intros [->|H]; [left; reflexivity|right; auto]. Qed.

Lemma T0_in : 0 < rem0 <= m2 -> exists t, In t T0.
Proof.
  intros H. assert (HT : length T0 > 0).
  { unfold T0. rewrite app_length, !shift_length, firstn_length. fold m2. lia. }
  exact (nonempty_in _ HT).
Qed.

Lemma class_sound : exists l, construct m e b0 b1 b2 = Some l /\ length l = m /\ raw_ok e l.
Proof.
  destruct ok_parts as (((N1 & NL) & N2 & N3 & N4 & N5) & _ & (T1 & T2 & T3) & Hodd & Hsum & Hbsum).
  assert (Hz : ceil_half m = z0 + m2 * k) by (unfold m; apply ceil_half_add).
  assert (Hdm : zz0 - m1 - 1 = m2 * q0 + (rem0 - 1)).
  { unfold q0, rem0. rewrite Nat.add_sub. apply Nat.div_mod. lia. }
  assert (Hrem : 0 < rem0 <= m2).
  { unfold rem0. pose proof (Nat.mod_upper_bound (zz0 - m1 - 1) m2). lia. }
  assert (Hnb : nb0 * m2 <= z0 - m1 + m2 - 1 < nb0 * m2 + m2).
  { unfold nb0. pose proof (Nat.div_mod (z0 - m1 + m2 - 1) m2 ltac:(lia)). pose proof (Nat.mod_upper_bound (z0 - m1 + m2 - 1) m2 ltac:(lia)). nia. }
  assert (HnbZ : nb0 <= z0 - m1 + 1) by nia.
  destruct (construct_eq m e b0 b1 b2 x0 x1 q rem0 (nb0 + k)) as (Ec & Hlen); fold m1 m2 m3; try assumption.
  { rewrite Hz. lia. }
  { rewrite Hz. unfold q. unfold zz0 in *. nia. }
  { rewrite Hz. nia. }
  { right. rewrite Hz. unfold zz0 in *. nia. }
  { unfold m. nia. }
  { rewrite Hz. nia. }
  rewrite HL, HR in Ec, Hlen. fold Dk in Ec, Hlen. fold Tk in Ec, Hlen.
  change (b0 ++ blocks L Rt b1 q ++ Tk) with (b0 ++ (blocks L Rt b1 q ++ Tk)) in Ec, Hlen. rewrite app_assoc in Ec, Hlen. fold Dp in Ec, Hlen.
  rewrite Hz in Ec, Hlen. eexists. split; [exact Ec|].
  pose proof (ceil_half_bounds m) as Hb. rewrite Hz in Hb.
  split. { rewrite app_length, firstn_length. unfold flip. rewrite map_length, rev_length, Hlen. lia. }
  destruct Dp_ok as (D1 & D2). pose proof Tk_rel as Hrel.
  assert (TS : StronglySorted xlt (Dp ++ Tk)).
  { apply SS_app. split; [assumption|]. split; [eapply rel_sorted; eauto|]. intros x y Hx Hy. apply D2 in Hx.
    destruct (rel_in _ _ _ Hrel Hy) as (y' & Hy' & (E & _)). apply T2 in Hy'. pose proof Dk_eq as HD. unfold xlt. lra. }
  pose proof Dk_eq as HD. pose proof e_eq as He.
  assert (TR : forall x, In x (Dp ++ Tk) -> (0 < fst x /\ fst x < ofnat e /\ 0 < snd x)%Q).
  { assert (HDe : (ofnat D0 <= E0)%Q).
    { assert (exists t, In t T0) as (t & Ht).
      { apply T0_in; lia. }
      apply T2 in Ht. pose proof (ofnat_nonneg D0). lra. }
    pose proof (ofnat_nonneg (Rt * k)) as Hk.
    intros x Hx. apply in_app_iff in Hx. destruct Hx as [Hx|Hx].
    - apply D2 in Hx. split; [tauto|]. split; [|tauto]. lra.
    - pose proof (T_weight x Hx). destruct (rel_in _ _ _ Hrel Hx) as (y' & Hy' & (E & _)). apply T2 in Hy'.
      assert (0 < ofnat D0)%Q by (unfold ofnat; change 0%Q with (inject_Z 0); rewrite <- Zlt_Qlt; unfold D0; lia). split; [lra|]. split; [lra|assumption]. }
  assert (HbR : (Qabs (ofnat k * (2 * (wsum b1 - ofnat Rt))) <= tol * (2 * ofnat (Rt * k)))%Q).
  { rewrite Qabs_Qmult, Qabs_Qmult. rewrite (Qabs_pos (ofnat k)) by apply ofnat_nonneg. rewrite (Qabs_pos 2) by discriminate.
    rewrite ofnat_mult. setoid_replace (tol * (2 * (ofnat Rt * ofnat k)))%Q with (ofnat k * (2 * (tol * ofnat Rt)))%Q by ring.
    assert (H2 : (2 * Qabs (wsum b1 - ofnat Rt) <= 2 * (tol * ofnat Rt))%Q) by lra.
    rewrite (Qmult_comm (ofnat k)), (Qmult_comm (ofnat k)). apply Qmult_le_compat_r; [assumption|apply ofnat_nonneg]. }
  assert (Cross : forall X, (forall x, In x X -> In x Dp \/ exists t, In t Tx /\ shifted x t) ->
            forall x y, In x X -> In y (Dp ++ Tk) -> (fst x + fst y < ofnat e)%Q).
  { assert (HDD : (ofnat D0 + ofnat D0 <= E0)%Q).
    { assert (exists t, In t T0) as (t & Ht).
      { apply T0_in; lia. }
      apply T2 in Ht. lra. }
    assert (HTx : forall t, In t Tx -> In t T0) by (intros t; unfold Tx; case odd; [apply in_removelast|exact (fun h => h)]).
    intros X HX x y Hx Hy. apply in_app_iff in Hy. destruct (HX x Hx) as [Hx'|(t & Ht & (Et & _))]; destruct Hy as [Hy|Hy].
    - apply D2 in Hx'. apply D2 in Hy. lra.
    - apply D2 in Hx'. destruct (rel_in _ _ _ Hrel Hy) as (y' & Hy' & (E & _)). apply T2 in Hy'. lra.
    - apply D2 in Hy. apply HTx in Ht. apply T2 in Ht. lra.
    - destruct (rel_in _ _ _ Hrel Hy) as (y' & Hy' & (E & _)). specialize (T3 t y' Ht Hy'). lra. }
  assert (Sum : forall s t, (s == wsum Tx)%Q -> (t == if odd then snd (last T0 zq) else 0)%Q ->
     (Qabs (2 * (wsum Dp + s) + t - ofnat e) <= tol * ofnat e)%Q).
  { intros s t Es Et. unfold Dp. rewrite wsum_app, blocks_wsum, Es, Et, He. unfold q. rewrite ofnat_plus, ofnat_mult.
    match goal with |- (Qabs ?A <= _)%Q => setoid_replace A with
      ((2 * (wsum b0 + ofnat q0 * wsum b1 + wsum Tx) + (if odd then snd (last T0 zq) else 0) - E0) + ofnat k * (2 * (wsum b1 - ofnat Rt)))%Q by ring end.
    eapply Qle_trans; [apply Qabs_triangle|]. rewrite ofnat_mult in HbR. lra. }
  assert (Hpar : m mod 2 = m0 mod 2).
  { unfold m. replace (m0 + 2 * (m2 * k)) with (m0 + (m2 * k) * 2) by lia. apply Nat.mod_add. lia. }
  pose proof (Nat.div_mod m 2 ltac:(lia)) as Hm2. rewrite Hpar in Hm2.
  assert (odd = true \/ odd = false) as [Eodd|Eodd] by (case odd; auto).
  - pose proof Eodd as Eo. unfold odd in Eodd. apply Nat.eqb_eq in Eodd.
    assert (Hmz : m - (z0 + m2 * k) = length (Dp ++ Tk) - 1) by lia.
    assert (HT0 : T0 = Tx ++ [last T0 zq]).
    { unfold Tx. rewrite Eo. apply app_removelast_last. destruct (T0_in Hrem) as (t & Ht). intros E. rewrite E in Ht. destruct Ht. }
    rewrite HT0 in Hrel. apply Forall2_app_inv_r in Hrel. destruct Hrel as (Tx' & M & RX & RM & ETk).
    inversion RM as [|t ? Mn ? (Rt1 & Rt2) RM' Ex Ey]. subst. inversion RM'. subst. rename t into tk.
    rewrite ETk in *. assert (EH : firstn (m - (z0 + m2 * k)) (Dp ++ Tx' ++ [tk]) = Dp ++ Tx').
    { rewrite Hmz. rewrite !app_length. simpl. rewrite app_assoc. rewrite firstn_app_le by (rewrite app_length; lia).
      apply firstn_all2. rewrite app_length. lia. }
    rewrite EH. rewrite app_assoc in *.
    apply mirror_ok; try assumption.
    + simpl; lia.
    + apply Cross. intros x Hx. apply in_app_iff in Hx. destruct Hx as [Hx|Hx]; [auto|right]. apply (rel_in _ _ _ RX Hx).
    + intros x [<-|[]]. specialize (Hodd Eo). rewrite Rt1, He.
      match goal with |- (Qabs ?A <= _)%Q => setoid_replace A with (2 * fst (last T0 zq) - E0)%Q by ring end.
      pose proof (ofnat_nonneg (Rt * k)). assert (0 < tol)%Q by reflexivity. assert (0 <= tol * ofnat (Rt * k))%Q by (apply Qmult_le_0_compat; lra). lra.
    + rewrite wsum_app. cbn [wsum fold_right]. apply (Sum (wsum Tx') (snd tk + 0)%Q); [apply rel_wsum; assumption|]. rewrite Eo, Rt2. ring.
  - pose proof Eodd as Eo. unfold odd in Eodd. apply Nat.eqb_neq in Eodd.
    assert (ETx : Tx = T0) by (unfold Tx; rewrite Eo; reflexivity). rewrite Eo, ETx in *. pose proof (Nat.mod_upper_bound m0 2 ltac:(lia)).
    assert (EH : firstn (m - (z0 + m2 * k)) (Dp ++ Tk) = Dp ++ Tk) by (apply firstn_all2; lia).
    rewrite EH. rewrite <- (app_nil_r (Dp ++ Tk)) at 2. apply mirror_ok; rewrite ?app_nil_r; try assumption.
    + simpl; lia.
    + apply Cross. intros x Hx. apply in_app_iff in Hx. destruct Hx as [Hx|Hx]; [auto|right]. apply (rel_in _ _ _ Hrel Hx).
    + intros x [].
    + rewrite wsum_app. cbn [wsum fold_right]. apply Sum; [apply rel_wsum; assumption|reflexivity].
Qed.
End Class.
