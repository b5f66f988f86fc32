(** Proofs about the maps of boundary integration points in double precision. *)
From Coq Require Import Reals ZArith Lia Lra.
From Flocq Require Import Core Relative.
From Verif Require Import Geo GgqModel MappingModel GridRoundModel GridRoundProofs ClipRoundModel ClipRoundProofs MapRoundModel MapRoundProofs AreaRoundModel.
Local Open Scope R_scope.

(** ** Relative errors of signed numbers. *)
Definition srel (e x y : R) : Prop := Rabs (x - y) <= e * Rabs y.
(** Zero or not tiny. *)
Definition above (e : Z) (y : R) : Prop := y = 0 \/ bpow radix2 e <= Rabs y.
Lemma srel_rel e x y : 0 <= y -> srel e x y <-> rel e x y. Proof. intros H. unfold srel, rel. rewrite (Rabs_pos_eq y) by exact H. reflexivity. Qed.
Lemma srel_weak e f x y : e <= f -> srel e x y -> srel f x y. Proof. unfold srel. intros L H. pose proof (Rmult_le_compat_r (Rabs y) _ _ (Rabs_pos y) L). lra. Qed.
Lemma srel_refl x : srel 0 x x. Proof. unfold srel. rewrite Rminus_eq_0, Rabs_R0. lra. Qed.
Lemma srel_zero e x : srel e x 0 -> x = 0. Proof. unfold srel. rewrite Rabs_R0, Rmult_0_r, Rminus_0_r. intros H. pose proof (Rabs_pos x). destruct (Req_dec x 0) as [E|N]; [exact E|]. apply Rabs_pos_lt in N. lra. Qed.
Lemma srel_mult e f x y x' y' : srel e x y -> srel f x' y' -> 0 <= e -> 0 <= f -> srel (e + f + e * f) (x * x') (y * y').
Proof.
  unfold srel. intros H H' E F. replace (x * x' - y * y') with ((x - y) * (x' - y') + (x - y) * y' + y * (x' - y')) by ring.
  eapply Rle_trans; [apply Rabs_triang|]. pose proof (Rabs_triang ((x - y) * (x' - y')) ((x - y) * y')) as T. rewrite !Rabs_mult in *.
  pose proof (Rmult_le_compat _ _ _ _ (Rabs_pos _) (Rabs_pos _) H H'). pose proof (Rmult_le_compat_r (Rabs y') _ _ (Rabs_pos y') H). pose proof (Rmult_le_compat_l (Rabs y) _ _ (Rabs_pos y) H'). lra.
Qed.
Lemma fl_srel x : bpow radix2 (-1022) <= Rabs x -> Rabs (fl x - x) <= u * Rabs x.
Proof.
  intros H. destruct (Rle_dec 0 x) as [P|N].
  - rewrite (Rabs_pos_eq x) in * by exact P. apply fl_rel, H.
  - rewrite (Rabs_left x) in * by lra. replace (fl x - x) with (- (fl (- x) - - x)) by (rewrite fl_opp; ring). rewrite Rabs_Ropp. apply fl_rel, H.
Qed.
Lemma srel_round e x y : srel e x y -> 0 <= e <= 1 / 1000 -> above (-1000) y -> srel (e + 1001 / 1000 * u) (fl x) y.
Proof.
  intros H E [Z|A].
  - subst y. apply srel_zero in H. subst x. unfold srel. rewrite fl_0, Rminus_eq_0, Rabs_R0. lra.
  - unfold srel in *. pose proof u_small as U. pose proof (Rabs_pos y) as Y. assert (B : e * Rabs y <= 1 / 1000 * Rabs y) by (apply Rmult_le_compat_r; lra).
    assert (X : 999 / 1000 * Rabs y <= Rabs x <= 1001 / 1000 * Rabs y). { pose proof (Rabs_triang_inv y x). pose proof (Rabs_triang_inv x y). rewrite Rabs_minus_sym in H0. lra. }
    assert (N : bpow radix2 (-1022) <= Rabs x). { apply Rle_trans with (bpow radix2 (-1000 - 1)); [apply bpow_le; lia|]. eapply half_bpow; [exact A|apply X]. }
    apply fl_srel in N. replace (fl x - y) with ((fl x - x) + (x - y)) by ring. eapply Rle_trans; [apply Rabs_triang|]. assert (u * Rabs x <= u * (1001 / 1000 * Rabs y)) by (apply Rmult_le_compat_l; lra). lra.
Qed.
Lemma above_mult e f y t : above e y -> bpow radix2 f <= Rabs t -> above (e + f) (y * t).
Proof. intros [->|A] T; [left; ring|right]. rewrite Rabs_mult, bpow_plus. apply Rmult_le_compat; try assumption; apply bpow_ge_0. Qed.
Lemma above_weak e f y : (f <= e)%Z -> above e y -> above f y. Proof. intros L [Z|A]; [left; exact Z|right]. eapply Rle_trans; [apply bpow_le, L|exact A]. Qed.
Lemma above_square e y : above e y -> above (e + e) (y * y).
Proof. intros [->|A]; [left; ring|right]. rewrite Rabs_mult, bpow_plus. apply Rmult_le_compat; try assumption; apply bpow_ge_0. Qed.
Lemma above_plus e x y : 0 <= x -> 0 <= y -> above e x -> above e y -> above e (x + y).
Proof. intros X Y [->|A] [->|B]; [left; ring|right|right|right]; rewrite ?(Rabs_pos_eq x), ?(Rabs_pos_eq y) in * by assumption; rewrite Rabs_pos_eq by lra; pose proof (bpow_gt_0 radix2 e); lra. Qed.
Lemma srel_plus e f x y x' y' : 0 <= y -> 0 <= y' -> e <= f -> srel f x y -> srel e x' y' -> srel f (x + x') (y + y').
Proof.
  intros Y Y' L H H'. apply (srel_weak _ f) in H'; [|exact L]. unfold srel in *. rewrite (Rabs_pos_eq y) in H by exact Y. rewrite (Rabs_pos_eq y') in H' by exact Y'. rewrite (Rabs_pos_eq (y + y')) by lra. replace (x + x' - (y + y')) with ((x - y) + (x' - y')) by ring. eapply Rle_trans; [apply Rabs_triang|]. lra.
Qed.
Lemma srel_sqrt e x y : 0 <= x -> 0 <= y -> 0 <= e -> srel e x y -> srel e (sqrt x) (sqrt y).
Proof.
  intros X Y E H. destruct (Req_dec y 0) as [Z|N].
  - subst y. apply srel_zero in H. subst x. unfold srel. rewrite Rminus_eq_0, Rabs_R0. apply Rmult_le_pos; [exact E|apply Rabs_pos].
  - unfold srel in *. assert (P : 0 < sqrt y) by (apply sqrt_lt_R0; lra). pose proof (sqrt_pos x) as Q. rewrite (Rabs_pos_eq (sqrt y)) by lra. rewrite (Rabs_pos_eq y) in H by exact Y. apply Rmult_le_reg_r with (sqrt y); [exact P|].
    rewrite Rmult_assoc, sqrt_sqrt by exact Y. eapply Rle_trans; [|exact H]. apply Rle_trans with (Rabs (sqrt x - sqrt y) * (sqrt x + sqrt y)); [apply Rmult_le_compat_l; [apply Rabs_pos|lra]|]. right. rewrite <- (Rabs_pos_eq (sqrt x + sqrt y)) at 1 by lra. rewrite <- Rabs_mult. f_equal. replace ((sqrt x - sqrt y) * (sqrt x + sqrt y)) with (sqrt x * sqrt x - sqrt y * sqrt y) by ring. rewrite !sqrt_sqrt by assumption. reflexivity.
Qed.

(** ** The area vector. *)
Definition sc (from to : box) (a : axis) : R := width to a / width from a.
Definition other (a : axis) : axis * axis := match a with AX => (AY, AZ) | AY => (AX, AZ) | AZ => (AX, AY) end.
Definition avec (n : pt) (from to : box) (a : axis) : R := at_ a n * sc from to (fst (other a)) * sc from to (snd (other a)).
Definition proper (n : pt) : Prop := forall a, at_ a n = 0 \/ bpow radix2 (-100) <= Rabs (at_ a n) <= bpow radix2 50.
Lemma sc_facts from to a : sized from -> sized to -> srel (31 / 10 * u) (scale_d from to a) (sc from to a) /\ bpow radix2 (-200) <= sc from to a <= bpow radix2 200 /\ 0 < sc from to a.
Proof. intros F T. destruct (scale_rel from to a F T) as [R0 B]. pose proof (bpow_gt_0 radix2 (-200)). fold (sc from to a) in *. split; [apply srel_rel; [lra|exact R0]|split; [exact B|lra]]. Qed.
Lemma at_area n from to a : at_ a (area_vector_d n from to) = fl (fl (at_ a n * scale_d from to (fst (other a))) * scale_d from to (snd (other a))). Proof. destruct a; reflexivity. Qed.
Lemma avec_rel n from to a : sized from -> sized to -> proper n -> srel (9 * u) (at_ a (area_vector_d n from to)) (avec n from to a) /\ above (-500) (avec n from to a) /\ Rabs (avec n from to a) <= bpow radix2 450.
Proof.
  intros F T N. rewrite at_area. unfold avec. set (c := fst (other a)). set (d := snd (other a)). destruct (sc_facts from to c F T) as (R1 & B1 & P1). destruct (sc_facts from to d F T) as (R2 & B2 & P2). pose proof u_small as U. assert (UU : u * u <= 1 / 1000000 * u) by (apply Rmult_le_compat_r; lra).
  assert (A0 : above (-100) (at_ a n)) by (destruct (N a) as [Z|[A _]]; [left; exact Z|right; exact A]).
  assert (A1 : above (-100 + -200) (at_ a n * sc from to c)) by (apply above_mult; [exact A0|rewrite Rabs_pos_eq; lra]). assert (A2 : above (-100 + -200 + -200) (at_ a n * sc from to c * sc from to d)) by (apply above_mult; [exact A1|rewrite Rabs_pos_eq; lra]).
  split; [|split; [exact A2|]].
  - pose proof (srel_mult _ _ _ _ _ _ (srel_refl (at_ a n)) R1 ltac:(lra) ltac:(lra)) as M1. apply srel_round in M1; [|lra|eapply above_weak; [|exact A1]; lia]. pose proof (srel_mult _ _ _ _ _ _ M1 R2 ltac:(lra) ltac:(lra)) as M2. set (k := 0 + 31 / 10 * u + 0 * (31 / 10 * u) + 1001 / 1000 * u) in *. assert (K : k + 31 / 10 * u + k * (31 / 10 * u) <= 75 / 10 * u) by (unfold k; lra). apply (srel_weak _ _ _ _ K) in M2. apply srel_round in M2; [|lra|eapply above_weak; [|exact A2]; lia]. eapply srel_weak; [|exact M2]. lra.
  - assert (L : Rabs (at_ a n) <= bpow radix2 50) by (destruct (N a) as [Z|[_ A]]; [rewrite Z, Rabs_R0; apply bpow_ge_0|exact A]). rewrite !Rabs_mult, (Rabs_pos_eq (sc from to c)), (Rabs_pos_eq (sc from to d)) by lra. change 450%Z with (50 + 200 + 200)%Z. rewrite !bpow_plus. apply Rmult_le_compat; [apply Rmult_le_pos; [apply Rabs_pos|lra]|lra| |lra]. apply Rmult_le_compat; [apply Rabs_pos|lra|exact L|lra].
Qed.

(** ** The norm. *)
Definition ssum (v : axis -> R) : R := v AX * v AX + v AY * v AY + v AZ * v AZ.
Lemma square_rel contract x y : srel (9 * u) x y -> above (-500) y -> srel (20 * u) (square_d contract x) (y * y) /\ srel (20 * u) (fl (x * x)) (y * y).
Proof.
  intros H A. pose proof u_small as U. assert (UU : u * u <= 1 / 1000000 * u) by (apply Rmult_le_compat_r; lra). pose proof (srel_mult _ _ _ _ _ _ H H ltac:(lra) ltac:(lra)) as M. apply (srel_weak _ (181 / 10 * u)) in M; [|lra].
  assert (R0 : srel (20 * u) (fl (x * x)) (y * y)). { eapply srel_weak; [|apply srel_round; [exact M|lra|apply (above_square (-500)), A]]. lra. } split; [|exact R0]. unfold square_d. destruct contract; [|exact R0]. eapply srel_weak; [|exact M]. lra.
Qed.
Lemma square_d_pos contract x : 0 <= square_d contract x. Proof. unfold square_d. pose proof (Rle_0_sqr x) as P. unfold Rsqr in P. destruct contract; [exact P|]. rewrite <- fl_0. apply fl_le, P. Qed.
Lemma norm_rel contract t (v : axis -> R) : (forall a, srel (9 * u) (at_ a t) (v a)) -> (forall a, above (-500) (v a)) -> srel (25 * u) (norm_d contract t) (sqrt (ssum v)).
Proof.
  intros H A. pose proof u_small as U. destruct (square_rel contract _ _ (H AX) (A AX)) as [_ X]. destruct (square_rel contract _ _ (H AY) (A AY)) as [Y _]. destruct (square_rel contract _ _ (H AZ) (A AZ)) as [Z _]. cbn [at_] in X, Y, Z.
  pose proof (Rle_0_sqr (v AX)) as PX. pose proof (Rle_0_sqr (v AY)) as PY. pose proof (Rle_0_sqr (v AZ)) as PZ. unfold Rsqr in PX, PY, PZ.
  pose proof (above_plus _ _ _ PX PY (above_square _ _ (A AX)) (above_square _ _ (A AY))) as A1. assert (P12 : 0 <= v AX * v AX + v AY * v AY) by lra. pose proof (above_plus _ _ _ P12 PZ A1 (above_square _ _ (A AZ))) as A2.
  pose proof (srel_plus _ _ _ _ _ _ PX PY (Rle_refl _) X Y) as S1. apply srel_round in S1; [|lra|exact A1]. assert (L20 : 20 * u <= 20 * u + 1001 / 1000 * u) by lra. pose proof (srel_plus (20 * u) _ _ _ _ _ P12 PZ L20 S1 Z) as S2. apply srel_round in S2; [|lra|exact A2].
  apply (srel_weak _ (23 * u)) in S2; [|lra]. unfold norm_d. set (S := fl (fl (fl (px t * px t) + square_d contract (py t)) + square_d contract (pz t))) in *. fold (ssum v) in S2.
  assert (PS : 0 <= S). { unfold S. rewrite <- fl_0 at 1. apply fl_le. pose proof (square_d_pos contract (py t)). pose proof (square_d_pos contract (pz t)). assert (0 <= fl (fl (px t * px t) + square_d contract (py t))); [|lra]. rewrite <- fl_0 at 1. apply fl_le. assert (0 <= fl (px t * px t)); [|lra]. apply (square_d_pos false). }
  assert (PV : 0 <= ssum v) by (unfold ssum; lra). apply srel_sqrt in S2; [|exact PS|exact PV|lra]. eapply srel_weak; [|apply srel_round; [exact S2|lra|]]; [lra|].
  destruct A2 as [E|E]; [left; fold (ssum v) in E; rewrite E; apply sqrt_0|right]. fold (ssum v) in E. rewrite Rabs_pos_eq in E by exact PV. rewrite Rabs_pos_eq by apply sqrt_pos. apply Rle_trans with (bpow radix2 (-500)); [apply bpow_le; lia|]. rewrite <- (sqrt_square (bpow radix2 (-500))) by apply bpow_ge_0. apply sqrt_le_1_alt. rewrite <- bpow_plus. exact E.
Qed.
Lemma norm_upper (v : axis -> R) : (forall a, Rabs (v a) <= bpow radix2 450) -> sqrt (ssum v) <= bpow radix2 451.
Proof.
  intros H. rewrite <- (sqrt_square (bpow radix2 451)) by apply bpow_ge_0. apply sqrt_le_1_alt. assert (Q : forall a, v a * v a <= bpow radix2 450 * bpow radix2 450). { intros a. rewrite <- (Rabs_pos_eq (v a * v a)) by apply Rle_0_sqr. rewrite Rabs_mult. apply Rmult_le_compat; try apply Rabs_pos; apply H. }
  pose proof (Q AX). pose proof (Q AY). pose proof (Q AZ). unfold ssum. change 451%Z with (450 + 1)%Z. rewrite !bpow_plus. pose proof (bpow_gt_0 radix2 450) as P. pose proof (Rmult_lt_0_compat _ _ P P). change (bpow radix2 1) with 2. lra.
Qed.

(** ** The unit normal. *)
Lemma unit_rel m M t y : 0 < M -> rel (25 * u) m M -> M <= bpow radix2 451 -> srel (9 * u) t y -> above (-500) y -> srel (40 * u) (fl (t * fl (1 / m))) (y / M).
Proof.
  intros P R0 L H A. pose proof u_small as U. assert (UU : u * u <= 1 / 1000000 * u) by (apply Rmult_le_compat_r; lra). assert (I : bpow radix2 (-451) <= / M). { change (-451)%Z with (- (451))%Z. rewrite bpow_opp. apply Rinv_le_contravar; lra. } assert (PI : 0 < / M) by (apply Rinv_0_lt_compat, P).
  pose proof (rel_div 0 (25 * u) 1 1 m M ltac:(lra) P (rel_refl 1 ltac:(lra)) R0 ltac:(lra) ltac:(lra)) as D. replace (1 / M) with (/ M) in D by (field; lra). apply (srel_rel _ _ _ (Rlt_le _ _ PI)) in D. apply srel_round in D; [|lra|right; rewrite Rabs_pos_eq by lra; eapply Rle_trans; [apply bpow_le|exact I]; lia].
  apply (srel_weak _ (265 / 10 * u)) in D; [|lra]. pose proof (srel_mult _ _ _ _ _ _ H D ltac:(lra) ltac:(lra)) as Q. apply (srel_weak _ (36 * u)) in Q; [|lra]. eapply srel_weak; [|apply srel_round; [exact Q|lra|]]; [lra|]. eapply (above_weak (-500 + -451)); [lia|]. apply above_mult; [exact A|]. rewrite Rabs_pos_eq; lra.
Qed.
