(** The constructed rules, for every number of knot spans, as spans: one check per class of numbers of knot spans. *)
From Coq Require Import Arith ZArith Reals QArith Qreals List Bool Lra Lia.
From Verif Require Import SplineSpec Ggq1dModel Ggq1dProofs Ggq1dAll GgqExactCheck GgqExactRules.
Import ListNotations.
Local Open Scope nat_scope.

(** ** numerators of the parts *)
Lemma near_shift c l zl a d : Forall2 (near c) l zl -> (a == over c d)%Q -> Forall2 (near c) (shift a l) (zshift d zl).
Proof.
  intros H Ha. unfold shift, zshift. induction H as [|q z l zl (Hx & Hw) H IH]; cbn [map]; constructor; [|exact IH]. split; cbn [fst snd]; [|exact Hw]. rewrite Hx, Ha, over_add. reflexivity.
Qed.
Lemma near_flip c l zl e d : Forall2 (near c) l zl -> (ofnat e == over c d)%Q -> Forall2 (near c) (flip e l) (zflip d zl).
Proof.
  intros H Ha. unfold flip, zflip. induction H as [|q z l zl (Hx & Hw) H IH]; cbn [map]; constructor; [|exact IH]. split; cbn [fst snd]; [|exact Hw]. rewrite Hx, Ha, over_sub. reflexivity.
Qed.
Lemma near_length c l zl : Forall2 (near c) l zl -> length l = length zl.
Proof. induction 1; cbn [length]; congruence. Qed.
Lemma near_firstn c n : forall l zl, Forall2 (near c) l zl -> Forall2 (near c) (firstn n l) (firstn n zl).
Proof. induction n as [|n IH]; intros l zl H; [constructor|]. destruct H; cbn [firstn]; constructor; auto. Qed.
Lemma over_ofnat c n : (ofnat n == over c (Z.of_nat n * Z.pos c))%Q.
Proof. unfold ofnat, over, inject_Z, Qeq. cbn [Qnum Qden]. lia. Qed.
Lemma over_half h n : (ofnat n / 2 == over (xO h) (Z.of_nat n * Z.pos h))%Q.
Proof. unfold ofnat, over, inject_Z, Qdiv, Qinv, Qmult, Qeq. cbn [Qnum Qden]. rewrite !Pos2Z.inj_mul. lia. Qed.

Definition zblocks (den : Z) (left right : nat) (z1 : list (Z * Z)) (n : nat) : list (Z * Z) :=
  flat_map (fun j => zshift (Z.of_nat (left + j * right) * den) z1) (seq 0 n).
Lemma near_blocks c left right b1 z1 n : Forall2 (near c) b1 z1 -> Forall2 (near c) (blocks left right b1 n) (zblocks (Z.pos c) left right z1 n).
Proof.
  intros H. unfold blocks, zblocks. induction (seq 0 n) as [|j l IH]; [constructor|]. cbn [flat_map]. apply Forall2_app; [|exact IH]. apply near_shift; [exact H|apply over_ofnat].
Qed.
Lemma zshift_zshift d d' l : zshift d (zshift d' l) = zshift (d' + d) l.
Proof. unfold zshift. rewrite map_map. apply map_ext. intros q. cbn [fst snd]. f_equal. lia. Qed.
Lemma zblocks_shift den left right z1 n k : zblocks den (left + k) right z1 n = zshift (Z.of_nat k * den) (zblocks den left right z1 n).
Proof.
  unfold zblocks. induction (seq 0 n) as [|j l IH]; [reflexivity|]. cbn [flat_map]. unfold zshift at 3. rewrite map_app. fold (zshift (Z.of_nat k * den) (zshift (Z.of_nat (left + j * right) * den) z1)). fold (zshift (Z.of_nat k * den) (flat_map (fun j => zshift (Z.of_nat (left + j * right) * den) z1) l)).
  rewrite <- IH, zshift_zshift. f_equal. f_equal. lia.
Qed.
Lemma blocks_add left right b1 k n : blocks left right b1 (k + n) = blocks left right b1 k ++ blocks (left + k * right) right b1 n.
Proof.
  revert left. induction k as [|k IH]; intros left; [cbn [Nat.add Nat.mul]; rewrite Nat.add_0_r; reflexivity|]. cbn [Nat.add]. rewrite !blocks_front, IH, <- app_assoc. replace (left + right + k * right) with (left + S k * right) by lia. reflexivity.
Qed.

(** the middle part of the rule: the points from span L on of one half, and the other half mirrored *)
Definition half (den h : Z) (e0 L Rt q0 rem0 : nat) (z1 z2 : list (Z * Z)) : list (Z * Z) :=
  zblocks den L Rt z1 q0 ++ zshift (Z.of_nat (L + q0 * Rt) * den) (firstn rem0 z1) ++ zshift (Z.of_nat e0 * h) z2.
Definition middle (den : Z) (e0 o : nat) (zc : list (Z * Z)) : list (Z * Z) := firstn (length zc - o) zc ++ zflip (Z.of_nat e0 * den) (rev zc).
(** ** the check of one class *)
Definition parts_okb (p r : nat) (h : positive) (b0 b1 b2 : qrule) (e0 m0 L Rt : nat) : bool :=
  let m1 := length b0 in let m2 := length b1 in let m3 := length b2 in
  let z0 := ceil_half m0 in let zz0 := z0 - m3 in
  let q0 := (zz0 - m1 - 1) / m2 in let rem0 := (zz0 - m1 - 1) mod m2 + 1 in let nb0 := (z0 - m1 + m2 - 1) / m2 in
  let den := Z.pos (xO h) in
  (0 <? m2) && (m3 <=? z0) && (m1 <? zz0) && (m1 + nb0 * m2 <=? m0) && (0 <? L) && (0 <? Rt) && (2 * L <? e0) &&
  match numerators (xO h) b0, numerators (xO h) b1, numerators (xO h) b2 with
  | Some n0, Some n1, Some n2 =>
      let eb0 := cut den L 0 n0 in let eb1 := cut den Rt 0 n1 in let mb1 := mir den eb1 in
      let ec := cut den (e0 - 2 * L) (Z.of_nat L * den) (middle den e0 (2 * z0 - m0) (half den (Z.pos h) e0 L Rt q0 rem0 n1 n2)) in
      let lam := next r (errs p den (last eb1 [])) in let mu := next r (errs p den (last mb1 [])) in
      chainb p r den [] eb0 lam && chainb p r den lam eb1 lam && chainb p r den lam ec mu && chainb p r den mu mb1 mu && chainb p r den mu (mir den eb0) []
  | _, _, _ => false
  end.

Lemma next_length r E : r <= 2 -> length (next r E) <= r + 1.
Proof. intros Hr. unfold next. rewrite map_length, hermite_length by exact Hr. lia. Qed.
Lemma ofZ_nat_div n den : (0 < den)%Z -> (IZR (Z.of_nat n * den) / IZR den = INR n)%R.
Proof. intros Hd. assert (0 < IZR den)%R by (apply IZR_lt; exact Hd). rewrite mult_IZR, <- INR_IZR_INZ. field. lra. Qed.
Lemma spans_times den Rt eb1 b1 L g : length eb1 = Rt -> (forall g, gs b1 g = spans den 0 eb1 g) -> forall k, gs (blocks L Rt b1 k) g = spans den (INR L) (times k eb1) g.
Proof.
  intros Hl H k. revert L. induction k as [|k IH]; intros L; [reflexivity|]. rewrite blocks_front, gs_app, IH, gs_shift, H, Q2R_ofnat. cbn [times]. rewrite spans_app, Hl, plus_INR. f_equal.
  replace (spans den (INR L) eb1 g) with (spans den (0 + INR L) eb1 g) by (rewrite Rplus_0_l; reflexivity). rewrite spans_shift. reflexivity.
Qed.

Lemma parts_sound p r h b0 b1 b2 e0 m0 L Rt : r <= 2 -> parts_okb p r h b0 b1 b2 e0 m0 L Rt = true ->
  forall x0 x1, back_x b0 = Some x0 -> back_x b1 = Some x1 -> ceil_nat x0 = L -> ceil_nat x1 = Rt ->
  forall k, exists l es, construct (m0 + 2 * (length b1 * k)) (e0 + 2 * Rt * k) b0 b1 b2 = Some l /\
    length es = e0 + 2 * Rt * k /\ chain p r (Z.pos (xO h)) [] es [] /\ forall g, gs l g = spans (Z.pos (xO h)) 0 es g.
Proof.
  intros Hr Hok x0 x1 Hx0 Hx1 HL HR k. unfold parts_okb in Hok.
  set (m1 := length b0) in *. set (m2 := length b1) in *. set (m3 := length b2) in *. set (z0 := ceil_half m0) in *. set (zz0 := z0 - m3) in *.
  set (q0 := (zz0 - m1 - 1) / m2) in *. set (rem0 := (zz0 - m1 - 1) mod m2 + 1) in *. set (nb0 := (z0 - m1 + m2 - 1) / m2) in *. set (den := Z.pos (xO h)) in *. cbv zeta in Hok.
  rewrite !andb_true_iff, !Nat.ltb_lt, !Nat.leb_le in Hok. destruct Hok as (((((((N2 & N3) & N4) & N5) & NL) & NR) & NE) & Hok).
  destruct (numerators h~0 b0) as [n0|] eqn:E0; [|discriminate]. destruct (numerators h~0 b1) as [n1|] eqn:E1; [|discriminate]. destruct (numerators h~0 b2) as [n2|] eqn:E2; [|discriminate].
  apply numerators_ok in E0, E1, E2. assert (Hd : (0 < den)%Z) by reflexivity.
  set (eb0 := cut den L 0 n0) in *. set (eb1 := cut den Rt 0 n1) in *. set (zc := half den (Z.pos h) e0 L Rt q0 rem0 n1 n2) in *. set (o := 2 * z0 - m0) in *.
  set (ec := cut den (e0 - 2 * L) (Z.of_nat L * den) (middle den e0 o zc)) in *.
  set (lam := next r (errs p den (last eb1 []))) in *. set (mu := next r (errs p den (last (mir den eb1) []))) in *.
  rewrite !andb_true_iff in Hok. destruct Hok as ((((C1 & C2) & C3) & C4) & C5).
  assert (Llam : length lam <= r + 1) by (apply next_length; exact Hr). assert (Lmu : length mu <= r + 1) by (apply next_length; exact Hr).
  apply chainb_ok in C1, C2, C3, C4, C5; try assumption; try (cbn [length]; lia).
  set (e := e0 + 2 * Rt * k) in *. set (m := m0 + 2 * (m2 * k)) in *.
  assert (Hz : ceil_half m = z0 + m2 * k) by (unfold m; apply ceil_half_add).
  assert (Hdm : zz0 - m1 - 1 = m2 * q0 + (rem0 - 1)). { unfold q0, rem0. rewrite Nat.add_sub. apply Nat.div_mod. lia. }
  assert (Hrem : 0 < rem0 <= m2). { unfold rem0. pose proof (Nat.mod_upper_bound (zz0 - m1 - 1) m2). lia. }
  assert (Hnb : nb0 * m2 <= z0 - m1 + m2 - 1 < nb0 * m2 + m2).
  { unfold nb0. pose proof (Nat.div_mod (z0 - m1 + m2 - 1) m2 ltac:(lia)). pose proof (Nat.mod_upper_bound (z0 - m1 + m2 - 1) m2 ltac:(lia)). nia. }
  assert (HnbZ : nb0 <= z0 - m1 + 1) by nia.
  destruct (construct_eq m e b0 b1 b2 x0 x1 (k + q0) rem0 (nb0 + k)) as (Ec & Hlen); fold m1 m2 m3; try assumption.
  { rewrite Hz. lia. }
  { rewrite Hz. unfold zz0 in *. nia. }
  { rewrite Hz. nia. }
  { right. rewrite Hz. unfold zz0 in *. nia. }
  { unfold m. nia. }
  { rewrite Hz. nia. }
  rewrite HL, HR in Ec, Hlen. rewrite Hz in Ec, Hlen. rewrite blocks_add, <- !app_assoc in Ec, Hlen.
  set (Ck := blocks (L + k * Rt) Rt b1 q0 ++ firstn rem0 (shift (ofnat (L + (k + q0) * Rt)) b1) ++ shift (ofnat e / 2) b2) in *.
  assert (NC : Forall2 (near h~0) Ck (zshift (Z.of_nat (k * Rt) * den) zc)).
  { unfold Ck, zc, half. unfold zshift at 1. rewrite !map_app. apply Forall2_app; [|apply Forall2_app].
    - change (map _ (zblocks den L Rt n1 q0)) with (zshift (Z.of_nat (k * Rt) * den) (zblocks den L Rt n1 q0)). rewrite <- zblocks_shift. apply near_blocks. exact E1.
    - change (map _ (zshift (Z.of_nat (L + q0 * Rt) * den) (firstn rem0 n1))) with (zshift (Z.of_nat (k * Rt) * den) (zshift (Z.of_nat (L + q0 * Rt) * den) (firstn rem0 n1))).
      rewrite zshift_zshift, firstn_shift. apply near_shift; [apply near_firstn; exact E1|]. rewrite over_ofnat with (c := h~0%positive). fold den. replace (Z.of_nat (L + q0 * Rt) * den + Z.of_nat (k * Rt) * den)%Z with (Z.of_nat (L + (k + q0) * Rt) * den)%Z by lia. reflexivity.
    - change (map _ (zshift (Z.of_nat e0 * Z.pos h) n2)) with (zshift (Z.of_nat (k * Rt) * den) (zshift (Z.of_nat e0 * Z.pos h) n2)). rewrite zshift_zshift. apply near_shift; [exact E2|]. rewrite over_half.
      replace (Z.of_nat e0 * Z.pos h + Z.of_nat (k * Rt) * den)%Z with (Z.of_nat e * Z.pos h)%Z; [reflexivity|]. unfold den, e. rewrite Pos2Z.inj_xO. lia. }
  assert (LC : length Ck = length zc). { rewrite (near_length _ _ _ NC). unfold zshift. apply map_length. }
  pose proof (ceil_half_bounds m0) as HB. fold z0 in HB.
  assert (LC1 : 1 <= length Ck). { unfold Ck. rewrite !app_length, firstn_length, shift_length. fold m2. lia. }
  set (pre := b0 ++ blocks L Rt b1 k) in *. rewrite (app_assoc b0 (blocks L Rt b1 k) Ck) in Ec, Hlen. fold pre in Ec, Hlen.
  assert (EF : firstn (m - (z0 + m2 * k)) (pre ++ Ck) = pre ++ firstn (length zc - o) Ck).
  { replace (m - (z0 + m2 * k)) with (length pre + (length zc - o)); [apply firstn_app_2|]. rewrite app_length in Hlen. unfold m, o in *. lia. }
  rewrite EF in Ec. eexists. exists (eb0 ++ times k eb1 ++ ec ++ times k (mir den eb1) ++ mir den eb0). split; [exact Ec|].
  assert (L0 : length eb0 = L) by apply cut_length. assert (L1 : length eb1 = Rt) by apply cut_length. assert (L2 : length ec = e0 - 2 * L) by apply cut_length.
  split. { rewrite !app_length, !times_length, !mir_length, L0, L1, L2. unfold e. nia. }
  split.
  { eapply chain_app; [exact C1|]. eapply chain_app; [apply chain_times; exact C2|]. eapply chain_app; [exact C3|]. eapply chain_app; [apply chain_times; exact C4|]. exact C5. }
  assert (G0 : forall g, gs b0 g = spans den 0 eb0 g).
  { intros g. rewrite (near_gs _ _ _ g E0). fold den. rewrite <- (cut_spans den Hd L 0 n0 g NL). f_equal. unfold Rdiv. ring. }
  assert (G1 : forall g, gs b1 g = spans den 0 eb1 g).
  { intros g. rewrite (near_gs _ _ _ g E1). fold den. rewrite <- (cut_spans den Hd Rt 0 n1 g NR). f_equal. unfold Rdiv. ring. }
  intros g. rewrite gs_app, gs_flip, gs_rev, !gs_app. unfold pre. rewrite !gs_app, !G0, !(spans_times den Rt eb1 b1 L _ L1 G1).
  rewrite !spans_app, !times_length, !mir_length, L0, L1, L2. rewrite Rplus_0_l.
  rewrite (near_gs _ _ _ _ NC). fold den. rewrite (near_gs _ _ _ g (near_firstn _ (length zc - o) _ _ NC)). fold den. unfold zshift at 1. rewrite firstn_map. change (map _ (firstn (length zc - o) zc)) with (zshift (Z.of_nat (k * Rt) * den) (firstn (length zc - o) zc)).
  rewrite !zs_shift by exact Hd. rewrite ofZ_nat_div by exact Hd.
  assert (EE : INR e = (INR e0 + 2 * INR (k * Rt))%R). { unfold e. rewrite plus_INR. replace (2 * Rt * k) with (2 * (k * Rt)) by lia. rewrite (mult_INR 2). reflexivity. }
  assert (M1 : (zs den (firstn (length zc - o) zc) (fun x => g (x + INR (k * Rt))) + zs den zc (fun x => g (INR e - (x + INR (k * Rt)))) = spans den (INR L + INR (k * Rt)) ec g)%R).
  { rewrite spans_shift. unfold ec. rewrite <- (ofZ_nat_div L den Hd), cut_spans by (exact Hd || lia). unfold middle. rewrite zs_app, zs_flip, ofZ_nat_div, zs_rev by exact Hd. f_equal. apply zs_ext. intros x. f_equal. rewrite EE. ring. }
  assert (M2 : spans den 0 eb0 (fun x => g (INR e - x)%R) = spans den (INR e - INR L) (mir den eb0) g).
  { rewrite <- spans_mir by exact Hd. f_equal. rewrite L0. ring. }
  assert (M3 : spans den (INR L) (times k eb1) (fun x => g (INR e - x)%R) = spans den (INR e - INR L - INR (k * Rt)) (times k (mir den eb1)) g).
  { rewrite <- spans_mir by exact Hd. rewrite mir_times, times_length, L1. reflexivity. }
  rewrite M2, M3.
  assert (LE : (INR (e0 - 2 * L) = INR e0 - 2 * INR L)%R). { rewrite minus_INR by lia. rewrite mult_INR. reflexivity. }
  replace (INR L + INR (k * Rt) + INR (e0 - 2 * L))%R with (INR e - INR L - INR (k * Rt))%R by (rewrite LE, EE; ring).
  replace (INR e - INR L - INR (k * Rt) + INR (k * Rt))%R with (INR e - INR L)%R by ring.
  rewrite <- M1. ring.
Qed.
