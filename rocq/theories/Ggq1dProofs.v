(** The one-dimensional GGQ rules for every number of knot spans. *)
From Coq Require Import Arith List Bool QArith Qabs Qround Lia Lqa Sorting.Sorted.
From Verif Require Import Ggq1dModel Ggq1dSpec.
Import ListNotations.
Local Open Scope nat_scope.

(** ** arithmetic *)
Lemma ofnat_plus a b : (ofnat (a + b) == ofnat a + ofnat b)%Q.
Proof. unfold ofnat. rewrite Nat2Z.inj_add, inject_Z_plus. reflexivity. Qed.
Lemma ofnat_mult a b : (ofnat (a * b) == ofnat a * ofnat b)%Q.
Proof. unfold ofnat. rewrite Nat2Z.inj_mul, inject_Z_mult. reflexivity. Qed.
Lemma ofnat_le a b : a <= b -> (ofnat a <= ofnat b)%Q.
Proof. intros H. unfold ofnat. rewrite <- Zle_Qle. lia. Qed.
Lemma ofnat_nonneg a : (0 <= ofnat a)%Q.
Proof. change 0%Q with (ofnat 0). apply ofnat_le. lia. Qed.

Lemma ceil_half_add n k : ceil_half (n + 2 * k) = ceil_half n + k.
Proof. unfold ceil_half. replace (n + 2 * k + 1) with (n + 1 + k * 2) by lia. rewrite Nat.div_add by lia. reflexivity. Qed.
Lemma ceil_half_bounds m : m <= 2 * ceil_half m <= m + 1.
Proof. unfold ceil_half. pose proof (Nat.div_mod (m + 1) 2 ltac:(lia)). pose proof (Nat.mod_upper_bound (m + 1) 2 ltac:(lia)). lia. Qed.

(** ** lists *)
Lemma firstn_app_le {A} (l l' : list A) n : n <= length l -> firstn n (l ++ l') = firstn n l.
Proof. intros H. rewrite firstn_app. replace (n - length l) with 0 by lia. simpl. apply app_nil_r. Qed.
Lemma SS_app {A} (R : A -> A -> Prop) l l' : StronglySorted R (l ++ l') <->
  StronglySorted R l /\ StronglySorted R l' /\ (forall x y, In x l -> In y l' -> R x y).
Proof.
  induction l as [|a l IH]; simpl.
  - split; [intros H; split; [constructor|split; [assumption|intros x y []]]|tauto].
  - split.
    + intros H. inversion H as [|? ? H1 H2]; subst. apply IH in H1. destruct H1 as (A1 & A2 & A3). rewrite Forall_app in H2. destruct H2 as (B1 & B2).
      split; [constructor; assumption|]. split; [assumption|]. intros x y [<-|Hx] Hy; [rewrite Forall_forall in B2; auto|auto].
    + intros (H1 & H2 & H3). inversion H1; subst. constructor.
      * apply IH. split; [assumption|]. split; [assumption|]. intros x y Hx Hy. apply H3; auto.
      * apply Forall_app. split; [assumption|]. apply Forall_forall. intros y Hy. apply H3; auto.
Qed.
Lemma SS_map {A B} (R : A -> A -> Prop) (R' : B -> B -> Prop) (f : A -> B) l : (forall x y, R x y -> R' (f x) (f y)) ->
  StronglySorted R l -> StronglySorted R' (map f l).
Proof.
  intros Hf. induction 1 as [|a l H IH Hl]; simpl; constructor; [assumption|]. rewrite Forall_map.
  eapply Forall_impl; [|exact Hl]. auto.
Qed.
Lemma SS_rev {A} (R : A -> A -> Prop) l : StronglySorted R l -> StronglySorted (fun x y => R y x) (rev l).
Proof.
  induction 1 as [|a l H IH Hl]; simpl; [constructor|]. apply SS_app. split; [assumption|]. split; [repeat constructor|].
  intros x y Hx [<-|[]]. rewrite Forall_forall in Hl. apply Hl. apply in_rev. assumption.
Qed.
Lemma SS_firstn {A} (R : A -> A -> Prop) n l : StronglySorted R l -> StronglySorted R (firstn n l).
Proof. intros H. rewrite <- (firstn_skipn n l) in H. apply SS_app in H. tauto. Qed.

Definition xlt (a b : Q * Q) : Prop := (fst a < fst b)%Q.

Lemma in_shift a l q : In q (shift a l) -> exists q0, In q0 l /\ q = (fst q0 + a, snd q0)%Q.
Proof. unfold shift. rewrite in_map_iff. intros (q0 & <- & H). exists q0. auto. Qed.
Lemma SS_shift a l : StronglySorted xlt l -> StronglySorted xlt (shift a l).
Proof. intros H. eapply SS_map; [|exact H]. intros x y. unfold xlt. simpl. lra. Qed.
Lemma shift_length a l : length (shift a l) = length l.
Proof. unfold shift. apply map_length. Qed.
Lemma firstn_shift n a l : firstn n (shift a l) = shift a (firstn n l).
Proof. unfold shift. apply firstn_map. Qed.

Lemma wsum_app a b : (wsum (a ++ b) == wsum a + wsum b)%Q.
Proof. induction a; simpl; [lra|]. rewrite IHa. lra. Qed.
Lemma wsum_shift a l : (wsum (shift a l) == wsum l)%Q.
Proof. induction l; simpl; [lra|]. unfold shift in IHl. rewrite IHl. lra. Qed.
Lemma wsum_rev l : (wsum (rev l) == wsum l)%Q.
Proof. induction l; simpl; [lra|]. rewrite wsum_app, IHl. simpl. lra. Qed.

(** ** blocks *)
Definition blocks (left right : nat) (b1 : qrule) (n : nat) : qrule :=
  flat_map (fun j => shift (ofnat (left + j * right)) b1) (seq 0 n).
Lemma blocks_S left right b1 n : blocks left right b1 (S n) = blocks left right b1 n ++ shift (ofnat (left + n * right)) b1.
Proof. unfold blocks. rewrite seq_S, flat_map_app. simpl. rewrite app_nil_r. reflexivity. Qed.
Lemma blocks_front left right b1 n : blocks left right b1 (S n) = shift (ofnat left) b1 ++ blocks (left + right) right b1 n.
Proof.
  unfold blocks. cbn [seq flat_map]. replace (left + 0 * right) with left by lia. f_equal.
  rewrite <- seq_shift, flat_map_concat_map, map_map, <- flat_map_concat_map.
  apply flat_map_ext. intros j. replace (left + S j * right) with (left + right + j * right) by lia. reflexivity.
Qed.
Lemma blocks_length left right b1 n : length (blocks left right b1 n) = n * length b1.
Proof. induction n; [reflexivity|]. rewrite blocks_S, app_length, shift_length, IHn. lia. Qed.
Lemma blocks_prefix left right b1 q n rem : 0 < rem <= length b1 -> q * length b1 + rem <= n * length b1 -> 0 < length b1 ->
  firstn (q * length b1 + rem) (blocks left right b1 n) = blocks left right b1 q ++ firstn rem (shift (ofnat (left + q * right)) b1).
Proof.
  intros Hr Hn Hp. induction n as [|n IH].
  - exfalso. simpl in Hn. lia.
  - rewrite blocks_S. destruct (Nat.le_gt_cases (q * length b1 + rem) (n * length b1)) as [H|H].
    + rewrite firstn_app_le by (rewrite blocks_length; assumption). apply IH. assumption.
    + assert (q = n) as -> by nia.
      replace (n * length b1 + rem) with (length (blocks left right b1 n) + rem) by (rewrite blocks_length; reflexivity).
      rewrite firstn_app_2. reflexivity.
Qed.

Lemma copy_at_split P S T src : length src = length S -> copy_at (P ++ S ++ T) (length P) src = Some (P ++ src ++ T).
Proof.
  intros H. unfold copy_at. rewrite !app_length. destruct (Nat.leb_spec (length P + length src) (length P + (length S + length T))); [|lia].
  f_equal. rewrite firstn_app_le by lia. rewrite firstn_all. f_equal. f_equal. rewrite H.
  rewrite app_assoc. rewrite <- app_length. rewrite skipn_app, skipn_all, Nat.sub_diag. reflexivity.
Qed.

Lemma fill_loop_blocks z right b1 : 0 < length b1 -> forall nb fuel P T left,
  nb <= fuel -> z <= length P + nb * length b1 -> (nb = 0 \/ length P + (nb - 1) * length b1 < z) -> nb * length b1 <= length T ->
  fill_loop fuel (length P) z left right b1 (P ++ T) = Some (P ++ blocks left right b1 nb ++ skipn (nb * length b1) T).
Proof.
  intros Hp. induction nb as [|nb IH]; intros fuel P T left Hf Hz Hlt HT.
  - simpl in Hz. destruct fuel; simpl; destruct (Nat.ltb_spec (length P) z); try lia; reflexivity.
  - destruct fuel as [|fuel]; [lia|]. cbn [fill_loop]. destruct Hlt as [Hlt|Hlt]; [lia|].
    assert (length P < z) by nia. destruct (Nat.ltb_spec (length P) z); [|lia].
    rewrite <- (firstn_skipn (length b1) T). set (S0 := firstn (length b1) T). set (T' := skipn (length b1) T).
    assert (HS : length S0 = length b1) by (unfold S0; rewrite firstn_length; nia).
    rewrite copy_at_split by (rewrite shift_length; symmetry; assumption).
    rewrite app_assoc. replace (length P + length b1) with (length (P ++ shift (ofnat left) b1)) by (rewrite app_length, shift_length; reflexivity).
    rewrite IH.
    + rewrite blocks_front, <- !app_assoc. do 2 f_equal. f_equal. f_equal. rewrite skipn_app. simpl.
      rewrite (skipn_all2 S0) by (rewrite HS; lia). simpl. f_equal. rewrite HS. lia.
    + lia.
    + rewrite app_length, shift_length. lia.
    + rewrite app_length, shift_length. destruct nb; [left; reflexivity|right; nia].
    + unfold T'. rewrite skipn_length. nia.
Qed.

Definition flip (e : nat) (l : qrule) : qrule := map (fun q => (ofnat e - fst q, snd q)%Q) l.

(** the constructed rule *)
Lemma construct_eq m e b0 b1 b2 x0 x1 q rem nb :
  0 < length b1 -> back_x b0 = Some x0 -> back_x b1 = Some x1 ->
  length b2 <= ceil_half m -> ceil_half m - length b2 = length b0 + q * length b1 + rem -> 0 < rem <= length b1 ->
  ceil_half m <= length b0 + nb * length b1 -> (nb = 0 \/ length b0 + (nb - 1) * length b1 < ceil_half m) ->
  length b0 + nb * length b1 <= m -> nb <= S (ceil_half m) ->
  let L := ceil_nat x0 in let Rt := ceil_nat x1 in
  let H := b0 ++ blocks L Rt b1 q ++ firstn rem (shift (ofnat (L + q * Rt)) b1) ++ shift (ofnat e / 2) b2 in
  construct m e b0 b1 b2 = Some (firstn (m - ceil_half m) H ++ flip e (rev H)) /\ length H = ceil_half m.
Proof.
  intros Hp E0 E1 Hb2 Hz Hrem Hnb Hnb' Hm Hf L Rt H. set (z := ceil_half m) in *.
  pose proof (ceil_half_bounds m) as Hzm. fold z in Hzm.
  assert (HlenH : length H = z).
  { unfold H. rewrite !app_length, blocks_length, shift_length, firstn_shift, shift_length, firstn_length. lia. }
  split; [|assumption]. unfold construct. fold z.
  assert (Ea0 : copy_at (repeat (0%Q, 0%Q) m) 0 b0 = Some (b0 ++ repeat (0%Q, 0%Q) (m - length b0))).
  { replace m with (length b0 + (m - length b0)) at 1 by lia. rewrite repeat_app.
    apply (copy_at_split [] (repeat (0%Q, 0%Q) (length b0))). rewrite repeat_length. reflexivity. }
  rewrite Ea0, E0, E1. fold L Rt.
  rewrite (fill_loop_blocks z Rt b1 Hp nb) by (try assumption; rewrite repeat_length; lia).
  destruct (Nat.leb_spec (length b2) z) as [_|]; [|lia].
  set (rest := skipn (nb * length b1) (repeat (0%Q, 0%Q) (m - length b0))).
  assert (Hrest : length rest = m - length b0 - nb * length b1) by (unfold rest; rewrite skipn_length, repeat_length; reflexivity).
  set (a1 := b0 ++ blocks L Rt b1 nb ++ rest).
  assert (Ha1 : length a1 = m) by (unfold a1; rewrite !app_length, blocks_length, Hrest; lia).
  assert (Efirst : firstn (z - length b2) a1 = b0 ++ blocks L Rt b1 q ++ firstn rem (shift (ofnat (L + q * Rt)) b1)).
  { unfold a1. rewrite Hz. rewrite <- Nat.add_assoc, firstn_app_2. f_equal.
    rewrite firstn_app_le by (rewrite blocks_length; lia). apply blocks_prefix; [assumption|lia|assumption]. }
  unfold copy_at. rewrite shift_length, Ha1. destruct (Nat.leb_spec (z - length b2 + length b2) m); [|lia].
  rewrite Efirst. replace (z - length b2 + length b2) with z by lia.
  assert (Eq : (b0 ++ blocks L Rt b1 q ++ firstn rem (shift (ofnat (L + q * Rt)) b1)) ++ shift (ofnat e / 2) b2 ++ skipn z a1 = H ++ skipn z a1).
  { unfold H. rewrite <- !app_assoc. reflexivity. }
  rewrite Eq. unfold mirror.
  assert (Ha2 : length (H ++ skipn z a1) = m) by (rewrite app_length, skipn_length, Ha1, HlenH; lia).
  rewrite Ha2. destruct (Nat.leb_spec z m); [|lia].
  rewrite firstn_app_le by lia. rewrite firstn_app_le by lia. rewrite (firstn_all2 (n := z) H) by lia. reflexivity.
Qed.

(** ** well-formedness before scaling *)
Record raw_ok (e : nat) (l : qrule) : Prop := {
  raw_sorted : StronglySorted xlt l;
  raw_range : Forall (fun q => 0 < fst q /\ fst q < ofnat e)%Q l;
  raw_positive : Forall (fun q => 0 < snd q)%Q l;
  raw_sum : (Qabs (wsum l - ofnat e) <= tol * ofnat e)%Q;
  raw_sym : Forall2 (fun a b => (Qabs (fst a + fst b - ofnat e) <= tol * ofnat e)%Q /\ snd a = snd b) l (rev l)
}.

Lemma scale_ok e l : 0 < e -> raw_ok e l -> rule_ok (length l) (scale e l).
Proof.
  intros He [A B C D E].
  assert (HE : (0 < ofnat e)%Q) by (unfold ofnat; change 0%Q with (inject_Z 0); rewrite <- Zlt_Qlt; lia).
  assert (HI : (0 < / ofnat e)%Q) by (apply Qinv_lt_0_compat; assumption).
  assert (H1 : (ofnat e * / ofnat e == 1)%Q) by (apply Qmult_inv_r; lra).
  set (h := (/ ofnat e)%Q) in *.
  constructor.
  - unfold scale. apply map_length.
  - eapply SS_map; [|exact A]. intros x y Hxy. unfold xlt in Hxy. simpl. fold h. apply Qmult_lt_compat_r; assumption.
  - unfold scale. rewrite Forall_map. eapply Forall_impl; [|exact B]. intros q (H & H'). simpl. fold h. split.
    + apply Qmult_lt_0_compat; assumption.
    + rewrite <- H1. apply Qmult_lt_compat_r; assumption.
  - unfold scale. rewrite Forall_map. eapply Forall_impl; [|exact C]. intros q H. simpl. fold h. apply Qmult_lt_0_compat; assumption.
  - assert (Ew : (wsum (scale e l) == wsum l * h)%Q).
    { clear. unfold h. induction l; simpl; [lra|]. unfold scale in IHl. rewrite IHl. simpl. ring. }
    rewrite Ew. setoid_replace (wsum l * h - 1)%Q with ((wsum l - ofnat e) * h)%Q by (rewrite <- H1; ring).
    rewrite Qabs_Qmult. rewrite (Qabs_pos h) by lra.
    apply Qle_trans with (tol * ofnat e * h)%Q; [apply Qmult_le_compat_r; lra|]. setoid_replace (tol * ofnat e * h)%Q with (tol * (ofnat e * h))%Q by ring. rewrite H1. lra.
  - assert (Er : rev (scale e l) = scale e (rev l)) by (unfold scale; rewrite map_rev; reflexivity). rewrite Er. clear - E H1 HI. fold h.
    induction E as [|a b la lb (Ha & Hb) Hab IH]; cbn [scale map]; constructor; [|exact IH]. cbn [fst snd]. fold h. split.
    + setoid_replace (fst a * h + fst b * h - 1)%Q with ((fst a + fst b - ofnat e) * h)%Q by (rewrite <- H1; ring).
      rewrite Qabs_Qmult. rewrite (Qabs_pos h) by lra.
      apply Qle_trans with (tol * ofnat e * h)%Q; [apply Qmult_le_compat_r; lra|]. setoid_replace (tol * ofnat e * h)%Q with (tol * (ofnat e * h))%Q by ring. rewrite H1. lra.
    + rewrite Hb. setoid_replace (snd b * h - snd b * h)%Q with 0%Q by ring. discriminate.
Qed.

(** a mirrored half rule X ++ M, M at most the middle point *)
Lemma mirror_ok e X M : length M <= 1 ->
  StronglySorted xlt (X ++ M) -> (forall x, In x (X ++ M) -> (0 < fst x /\ fst x < ofnat e /\ 0 < snd x)%Q) ->
  (forall x y, In x X -> In y (X ++ M) -> (fst x + fst y < ofnat e)%Q) ->
  (forall x, In x M -> (Qabs (2 * fst x - ofnat e) <= tol * ofnat e)%Q) ->
  (Qabs (2 * wsum X + wsum M - ofnat e) <= tol * ofnat e)%Q ->
  raw_ok e (X ++ flip e (rev (X ++ M))).
Proof.
  intros HM HS Hr Hx Hm Hw.
  assert (HW : (wsum (flip e (rev (X ++ M))) == wsum X + wsum M)%Q).
  { assert (forall l, wsum (flip e l) == wsum l)%Q as W. { induction l; simpl; [lra|]. unfold flip in IHl. rewrite IHl. lra. }
    rewrite W, wsum_rev, wsum_app. lra. }
  constructor.
  - apply SS_app. split; [apply SS_app in HS; tauto|]. split.
    + unfold flip. apply SS_map with (R := fun x y => xlt y x); [|apply SS_rev; assumption]. intros x y. unfold xlt. simpl. lra.
    + intros x y Hx' Hy. unfold flip in Hy. apply in_map_iff in Hy. destruct Hy as (y' & <- & Hy). apply in_rev in Hy.
      specialize (Hx x y' Hx' Hy). unfold xlt. simpl. lra.
  - apply Forall_app. split.
    + apply Forall_forall. intros x Hx'. specialize (Hr x). rewrite in_app_iff in Hr. specialize (Hr (or_introl Hx')). tauto.
    + unfold flip. rewrite Forall_map. apply Forall_forall. intros x Hx'. apply in_rev in Hx'. specialize (Hr x Hx'). simpl. lra.
  - apply Forall_app. split.
    + apply Forall_forall. intros x Hx'. specialize (Hr x). rewrite in_app_iff in Hr. specialize (Hr (or_introl Hx')). tauto.
    + unfold flip. rewrite Forall_map. apply Forall_forall. intros x Hx'. apply in_rev in Hx'. specialize (Hr x Hx'). simpl. tauto.
  - rewrite wsum_app, HW. setoid_replace (wsum X + (wsum X + wsum M) - ofnat e)%Q with (2 * wsum X + wsum M - ofnat e)%Q by ring. assumption.
  - assert (Htol : (0 <= tol * ofnat e)%Q) by (apply Qmult_le_0_compat; [discriminate|apply ofnat_nonneg]).
    assert (HrM : rev M = M) by (destruct M as [|a [|b M]]; [reflexivity|reflexivity|simpl in HM; lia]).
    assert (El : X ++ flip e (rev (X ++ M)) = X ++ flip e M ++ flip e (rev X)).
    { rewrite rev_app_distr, HrM. unfold flip. rewrite map_app. reflexivity. }
    assert (Er : rev (X ++ flip e M ++ flip e (rev X)) = flip e X ++ flip e M ++ rev X).
    { rewrite !rev_app_distr. unfold flip. rewrite <- !map_rev, rev_involutive, HrM. rewrite <- app_assoc. reflexivity. }
    rewrite El, Er. apply Forall2_app; [|apply Forall2_app].
    + clear - Htol. unfold flip. induction X; cbn [map]; constructor; [|assumption]. cbn [fst snd]. split; [|reflexivity].
      setoid_replace (fst a + (ofnat e - fst a) - ofnat e)%Q with 0%Q by ring. assumption.
    + clear - Hm. unfold flip. induction M as [|a M IH]; cbn [map]; constructor; [|apply IH; intros; apply Hm; right; assumption]. cbn [fst snd]. split; [|reflexivity].
      specialize (Hm a (or_introl eq_refl)).
      setoid_replace (ofnat e - fst a + (ofnat e - fst a) - ofnat e)%Q with (- (2 * fst a - ofnat e))%Q by ring. rewrite Qabs_opp. assumption.
    + clear - Htol. unfold flip. induction (rev X); cbn [map]; constructor; [|assumption]. cbn [fst snd]. split; [|reflexivity].
      setoid_replace (ofnat e - fst a + fst a - ofnat e)%Q with 0%Q by ring. assumption.
Qed.
