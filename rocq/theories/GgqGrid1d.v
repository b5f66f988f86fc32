(** One direction of a box: the moved points of a generalized Gauss rule integrate the splines of the grid. *)
From Coq Require Import Arith Reals QArith Qreals List Lra Lia Psatz.
From Verif Require Import Geo GridModel GgqModel GgqProofs SplineSpec Ggq1dModel Ggq1dSpec Ggq1dProofs Ggq1dAll Ggq1dProps GgqExactRules GgqExactProps GgqLast GgqGridSpec.
Import ListNotations.
Local Open Scope R_scope.

(** *** Bounds for the pieces *)
Lemma value_bound c t : 0 <= t <= 1 -> Rabs (value c t) <= size c.
Proof.
  intros Ht. induction c as [|a c IH]; cbn [value size fold_right]; [rewrite Rabs_R0; lra|]. fold (value c t). fold (size c).
  eapply Rle_trans; [apply Rabs_triang|]. rewrite Rabs_mult, (Rabs_pos_eq t) by lra. pose proof (Rabs_pos (value c t)). nra.
Qed.
Lemma value_lipschitz c s t : 0 <= s <= 1 -> 0 <= t <= 1 -> Rabs (value c s - value c t) <= INR (length c) * size c * Rabs (s - t).
Proof.
  intros Hs Ht. induction c as [|a c IH]; [cbn; rewrite Rminus_0_r, Rabs_R0; lra|]. cbn [value size fold_right length]. fold (value c s). fold (value c t). fold (size c). rewrite S_INR.
  replace (a + s * value c s - (a + t * value c t)) with ((s - t) * value c s + t * (value c s - value c t)) by ring.
  eapply Rle_trans; [apply Rabs_triang|]. rewrite !Rabs_mult, (Rabs_pos_eq t) by lra.
  pose proof (value_bound c s Hs) as V. pose proof (Rabs_pos (s - t)) as D. pose proof (Rabs_pos a). pose proof (pos_INR (length c)). pose proof (size_nonneg c).
  assert (Rabs (s - t) * Rabs (value c s) <= Rabs (s - t) * size c) by (apply Rmult_le_compat_l; lra).
  assert (t * Rabs (value c s - value c t) <= 1 * (INR (length c) * size c * Rabs (s - t))) by (apply Rmult_le_compat; try lra; apply Rabs_pos).
  assert (0 <= INR (length c) * Rabs a * Rabs (s - t)) by (apply Rmult_le_pos; [apply Rmult_le_pos|]; lra).
  assert (0 <= Rabs a * Rabs (s - t)) by (apply Rmult_le_pos; lra). nra.
Qed.

Section Axis.
Variables (p r n : nat) (lo up : R) (P : nat -> list R) (g G : R -> R) (B : R).
Hypothesis Hn : (0 < n)%nat.
Hypothesis Hlu : lo < up.
Hypothesis Sp : grid_spline p r n lo up P g.
Hypothesis Hb : forall k, (k < n)%nat -> size (P k) <= B.
Hypothesis Hp : (p <= 8)%nat.
Hypothesis An : antiderivative_on lo up G g.
Let d := (up - lo) / INR n.
Let knot k := lo + d * INR k.
Lemma w_pos : 0 < d.
Proof. unfold d. apply Rdiv_lt_0_compat; [lra|apply lt_0_INR, Hn]. Qed.
Lemma knot_end : knot n = up.
Proof. unfold knot, d. field. apply not_0_INR. lia. Qed.
Lemma knot_S k : knot (S k) = knot k + d.
Proof. unfold knot. rewrite S_INR. ring. Qed.
Lemma knot_mono i j : (i <= j)%nat -> knot i <= knot j.
Proof. intros H. apply le_INR in H. unfold knot. pose proof w_pos. nra. Qed.
Lemma B_nonneg : 0 <= B.
Proof. eapply Rle_trans; [apply size_nonneg|apply (Hb 0 Hn)]. Qed.
Lemma in_piece k x : (k < n)%nat -> knot k <= x <= knot (S k) -> exists t, 0 <= t <= 1 /\ x = lo + d * (INR k + t) /\ g x = value (P k) t.
Proof.
  intros Hk Hx. pose proof w_pos as W. set (t := (x - knot k) / d). assert (E : x = lo + d * (INR k + t)) by (unfold t, knot; field; lra).
  exists t. assert (T : 0 <= t <= 1).
  { rewrite knot_S in Hx. assert (D : d * t = x - knot k) by (unfold t; field; lra). split; nra. }
  split; [exact T|]. split; [exact E|]. rewrite E. apply Sp; assumption.
Qed.
Lemma find_piece x : lo <= x <= up -> exists k, (k < n)%nat /\ knot k <= x <= knot (S k).
Proof.
  intros (H1 & H2). rewrite <- knot_end in H2. assert (K : forall m, (m <= n)%nat -> x <= knot m -> (0 < m)%nat -> exists k, (k < n)%nat /\ knot k <= x <= knot (S k)).
  { induction m as [|m IH]; intros Hm Hx Hpos; [lia|]. destruct (Rle_dec x (knot m)) as [L|L].
    - destruct m as [|m]; [|apply IH; try lia; exact L]. exists 0%nat. split; [exact Hn|]. split; [|exact Hx]. unfold knot. cbn [INR]. lra.
    - exists m. split; [lia|]. lra. }
  apply (K n); [lia|exact H2|exact Hn].
Qed.
Lemma g_bound x : lo <= x <= up -> Rabs (g x) <= B.
Proof.
  intros H. destruct (find_piece x H) as (k & Hk & Hx). destruct (in_piece k x Hk Hx) as (t & T & _ & E). rewrite E.
  eapply Rle_trans; [apply value_bound, T|apply Hb, Hk].
Qed.
Let M := 9 * B / d.
Lemma M_nonneg : 0 <= M.
Proof. unfold M. pose proof w_pos. pose proof B_nonneg. apply Rmult_le_pos; [lra|]. left. apply Rinv_0_lt_compat. assumption. Qed.
Lemma piece_lipschitz k x y : (k < n)%nat -> knot k <= x <= knot (S k) -> knot k <= y <= knot (S k) -> Rabs (g x - g y) <= M * Rabs (x - y).
Proof.
  intros Hk Hx Hy. destruct (in_piece k x Hk Hx) as (s & S1 & Ex & ->). destruct (in_piece k y Hk Hy) as (t & T & Ey & ->).
  eapply Rle_trans; [apply (value_lipschitz (P k) s t S1 T)|]. destruct Sp as ((Sl & _) & _). specialize (Sl k Hk). specialize (Hb k Hk).
  assert (L : INR (length (P k)) <= 9) by (replace 9 with (INR 9) by (cbn; lra); apply le_INR; lia).
  replace (x - y) with (d * (s - t)) by (rewrite Ex, Ey; ring). pose proof w_pos as W. rewrite Rabs_mult, (Rabs_pos_eq d) by lra.
  replace (M * (d * Rabs (s - t))) with (9 * B * Rabs (s - t)) by (unfold M; field; lra).
  apply Rmult_le_compat_r; [apply Rabs_pos|]. apply Rmult_le_compat; [apply pos_INR|apply size_nonneg|exact L|exact Hb].
Qed.
Lemma ordered_lipschitz m : forall x y, (m <= n)%nat -> lo <= x -> x <= y -> y <= knot m -> Rabs (g x - g y) <= M * (y - x).
Proof.
  induction m as [|m IH]; intros x y Hm Hx Hxy Hy.
  - assert (x = y) as -> by (unfold knot in Hy; cbn [INR] in Hy; lra). rewrite !Rminus_eq_0, Rabs_R0. lra.
  - assert (Km := knot_mono m (S m) ltac:(lia)). destruct (Rle_dec y (knot m)) as [L|L]; [apply IH; try assumption; lia|].
    destruct (Rle_dec (knot m) x) as [L'|L'].
    + eapply Rle_trans; [apply (piece_lipschitz m x y); [lia|lra|lra]|]. rewrite Rabs_minus_sym, Rabs_pos_eq by lra. lra.
    + assert (A := IH x (knot m) ltac:(lia) Hx ltac:(lra) ltac:(lra)). assert (C := piece_lipschitz m (knot m) y ltac:(lia) ltac:(lra) ltac:(lra)).
      rewrite (Rabs_minus_sym (knot m) y), (Rabs_pos_eq (y - knot m)) in C by lra.
      replace (g x - g y) with ((g x - g (knot m)) + (g (knot m) - g y)) by ring. eapply Rle_trans; [apply Rabs_triang|]. lra.
Qed.
Lemma lipschitz x y : lo <= x <= up -> lo <= y <= up -> Rabs (g x - g y) <= M * Rabs (x - y).
Proof.
  intros Hx Hy. destruct (Rle_dec x y) as [L|L].
  - rewrite (Rabs_minus_sym x y), (Rabs_pos_eq (y - x)) by lra. apply (ordered_lipschitz n); try lra; [lia|rewrite knot_end; lra].
  - rewrite Rabs_minus_sym. rewrite (Rabs_pos_eq (x - y)) by lra. apply (ordered_lipschitz n); try lra; [lia|rewrite knot_end; lra].
Qed.
Lemma integral_bound x y : lo <= x -> x < y -> y <= up -> Rabs (G y - G x) <= (y - x) * B.
Proof.
  intros Hx Hxy Hy. destruct An as (A1 & A2).
  destruct (MVT G id x y (fun c H => exist _ (g c) (A2 c ltac:(lra))) (fun c _ => derivable_pt_id c) Hxy (fun c H => A1 c ltac:(lra)) (fun c _ => derivable_continuous_pt id c (derivable_pt_id c))) as (c & Hc & E).
  rewrite derive_pt_id in E. unfold id in E. cbn [derive_pt proj1_sig] in E. rewrite Rmult_1_r in E. rewrite <- E, Rabs_mult, Rabs_pos_eq by lra.
  apply Rmult_le_compat_l; [lra|]. apply g_bound. lra.
Qed.

(** *** A box of e cells from cell k0 *)
Variables (k0 e : nat).
Hypothesis He : (0 < e)%nat.
Hypothesis Hk : (k0 + e <= n)%nat.
Let bl := lo + d * INR k0.
Let bu := lo + d * INR (k0 + e).
Lemma box_width : bu - bl = d * INR e.
Proof. unfold bu, bl. rewrite plus_INR. ring. Qed.
Lemma box_in : lo <= bl /\ bl < bu /\ bu <= up.
Proof.
  assert (0 < INR e) by (apply lt_0_INR, He). pose proof w_pos. pose proof box_width. assert (0 < d * INR e) by (apply Rmult_lt_0_compat; assumption).
  assert (K1 := knot_mono 0 k0 ltac:(lia)). assert (K2 := knot_mono (k0 + e) n Hk). rewrite knot_end in K2. unfold knot in K1, K2. cbn [INR] in K1. unfold bl, bu in *. lra.
Qed.
Let h t := g (bl + (bu - bl) * t).
Lemma h_pieces : has_pieces e (fun i => P (k0 + i)%nat) h.
Proof.
  intros i x Hi Hx. assert (E0 : 0 < INR e) by (apply lt_0_INR, He). unfold h. rewrite box_width.
  assert (T : 0 <= INR e * x - INR i <= 1).
  { assert (X1 : INR e * (INR i / INR e) = INR i) by (field; lra). assert (X2 : INR e * (INR (S i) / INR e) = INR (S i)) by (field; lra). rewrite S_INR in X2. rewrite S_INR in Hx.
    assert (INR e * (INR i / INR e) <= INR e * x) by (apply Rmult_le_compat_l; lra). assert (INR e * x <= INR e * ((INR i + 1) / INR e)) by (apply Rmult_le_compat_l; lra). lra. }
  destruct Sp as (_ & V). rewrite <- (V (k0 + i)%nat _ ltac:(lia) T). f_equal. unfold bl. fold d. rewrite plus_INR. ring.
Qed.
Lemma h_spline : spline_pieces p r e (fun i => P (k0 + i)%nat).
Proof.
  destruct Sp as ((S1 & S2) & _). split; [intros i Hi; apply S1; lia|]. intros i k Hi Hr. replace (k0 + S i)%nat with (S (k0 + i)) by lia. apply S2; [lia|exact Hr].
Qed.
Let F t := G (bl + (bu - bl) * t) / (bu - bl).
Lemma F_anti : antiderivative F h.
Proof.
  destruct An as (A1 & A2). destruct box_in as (B1 & B2 & B3). set (w := bu - bl). assert (W : 0 < w) by (unfold w; lra).
  assert (Lin : forall x, derivable_pt_lim (fun t => bl + w * t) x w).
  { intros x. assert (L : derivable_pt_lim (fun t => bl + w * t) x (0 + w * 1)).
    { apply (derivable_pt_lim_plus (fun _ => bl) (fun t => w * t)); [apply derivable_pt_lim_const|]. apply (derivable_pt_lim_scal id w x 1), derivable_pt_lim_id. }
    replace (0 + w * 1) with w in L by ring. exact L. }
  split; intros x Hx.
  - unfold F. fold w. change (continuity_pt (fun t => (fun t => G (bl + w * t)) t * (fun _ => / w) t) x). apply (continuity_pt_mult (fun t => G (bl + w * t)) (fun _ => / w)); [|apply continuity_pt_const; intros a b; reflexivity].
    apply (continuity_pt_comp (fun t => bl + w * t) G); [apply derivable_continuous_pt; exists w; apply Lin|]. apply A1. unfold w in *. nra.
  - unfold F, h. fold w. assert (D : derivable_pt_lim (fun t => G (bl + w * t)) x (g (bl + w * x) * w)).
    { apply (derivable_pt_lim_comp (fun t => bl + w * t) G x w); [apply Lin|]. apply A2. unfold w in *. nra. }
    apply (derivable_pt_lim_scal _ (/ w)) in D. replace (/ w * (g (bl + w * x) * w)) with (g (bl + w * x)) in D by (field; lra).
    intros eps Heps. destruct (D eps Heps) as (del & Hd). exists del. intros k Hk0 Hk1. specialize (Hd k Hk0 Hk1). unfold mult_real_fct in Hd.
    replace (G (bl + w * (x + k)) / w - G (bl + w * x) / w) with (/ w * G (bl + w * (x + k)) - / w * G (bl + w * x)) by (unfold Rdiv; ring). exact Hd.
Qed.
Variables (deg : nat) (meth : ggq) (l : qrule) (f : R * R -> R * R).
Hypothesis Hdeg : (2 <= deg <= 4)%nat.
Hypothesis Target : target deg meth = (p, r).
Hypothesis El : get_ggq deg e meth = Some l.
Hypothesis Hf : forall q, In q (real_rule l) -> snd (f q) = (bu - bl) * snd q /\ Rabs (fst (f q) - (bl + (bu - bl) * fst q)) <= eps2 /\ bl < fst (f q) < bu.
Lemma total_bound (s : nat -> R) m : (forall i, (i < m)%nat -> s i <= B) -> total s m <= INR m * B.
Proof. induction m as [|m IH]; intros H; cbn [total]; [cbn; lra|]. rewrite S_INR. specialize (IH ltac:(intros; apply H; lia)). specialize (H m ltac:(lia)). lra. Qed.
Lemma rule_quadrature : Rabs (quadrature (real_rule l) h - (F 1 - F 0)) <= / 10 ^ 13 * B.
Proof.
  destruct (ggq_rules_exact deg e meth Hdeg ltac:(lia)) as (l' & El' & H). rewrite El in El'. injection El' as <-. rewrite Target in H. cbn [fst snd] in H.
  specialize (H _ h F h_spline h_pieces F_anti). eapply Rle_trans; [exact H|]. assert (E0 : 0 < INR e) by (apply lt_0_INR, He).
  apply Rmult_le_compat_l; [left; apply Rinv_0_lt_compat, pow_lt; lra|]. apply Rmult_le_reg_r with (INR e); [exact E0|]. unfold Rdiv. rewrite Rmult_assoc, Rinv_l, Rmult_1_r by lra. rewrite Rmult_comm.
  apply total_bound. intros i Hi. apply Hb. lia.
Qed.
Lemma weights_fine : (forall q, In q (real_rule l) -> 0 <= snd q /\ 0 <= fst q <= 1) /\ quadrature (real_rule l) (fun _ => 1) <= 1 + / 10 ^ 13.
Proof.
  destruct (all_rules deg e meth Hdeg ltac:(lia)) as (l' & El' & R). rewrite El in El'. injection El' as <-. split.
  - intros q Hq. unfold real_rule in Hq. apply in_map_iff in Hq as (q' & <- & Hq). destruct R as [_ _ R1 R2 _ _]. rewrite Forall_forall in R1, R2. specialize (R1 q' Hq) as (A & A'). specialize (R2 q' Hq). cbn [fst snd].
    apply Qlt_Rlt in A, A', R2. replace (Q2R 0) with 0 in * by (unfold Q2R; cbn; lra). replace (Q2R 1) with 1 in * by (unfold Q2R; cbn; lra). lra.
  - destruct (ggq_rules_exact deg e meth Hdeg ltac:(lia)) as (l' & El' & H). rewrite El in El'. injection El' as <-.
    assert (K := H (fun _ => [1]) (fun _ => 1) (fun x => x)). cbv beta in K. assert (K' : Rabs (quadrature (real_rule l) (fun _ => 1) - (1 - 0)) <= / 10 ^ 13 * (total (fun _ => size [1]) e / INR e)).
    { apply K.
      - split; [intros i Hi; cbn; lia|]. intros i k Hi Hr. destruct k as [|k]; [cbn; ring|]. cbn [derivatives derivative weighted]. 
        assert (Z : forall m x, value (derivatives m []) x = 0) by (intros m x; induction m as [|m IH]; [reflexivity|exact IH]). rewrite !Z. reflexivity.
      - intros i x Hi Hx. cbn. ring.
      - split; [intros x _; apply derivable_continuous_pt, derivable_pt_id|intros x _; apply derivable_pt_lim_id]. }
    assert (T : total (fun _ => size [1]) e = INR e). { clear. induction e as [|m IH]; [reflexivity|]. cbn [total]. rewrite IH, S_INR. cbn. rewrite Rabs_R1. ring. }
    rewrite T in K'. unfold Rdiv in K'. rewrite Rinv_r in K' by (apply not_0_INR; lia). pose proof (Rle_abs (quadrature (real_rule l) (fun _ => 1) - (1 - 0))). lra.
Qed.
Lemma moved_quadrature (rl : list (R * R)) : (forall q, In q rl -> In q (real_rule l)) ->
  Rabs (quadrature (map f rl) g - (bu - bl) * quadrature rl h) <= (bu - bl) * (M * eps2) * quadrature rl (fun _ => 1).
Proof.
  destruct box_in as (B1 & B2 & B3). pose proof M_nonneg as M0. destruct weights_fine as (Wp & _).
  induction rl as [|q rl IH]; intros Hin; [cbn; rewrite !Rmult_0_r, Rminus_0_r, Rabs_R0; lra|].
  specialize (IH (fun q I => Hin q (or_intror I))). destruct (Hf q (Hin q (or_introl eq_refl))) as (F1 & F2 & F3). destruct (Wp q (Hin q (or_introl eq_refl))) as (Wq & Xq).
  unfold quadrature in *. cbn [map fold_right]. set (A := fold_right _ 0 (map f rl)) in *. set (C := fold_right (fun q s => snd q * h (fst q) + s) 0 rl) in *. set (D := fold_right (fun q s => snd q * 1 + s) 0 rl) in *. clearbody A C D.
  rewrite F1. replace ((bu - bl) * snd q * g (fst (f q)) + A - (bu - bl) * (snd q * h (fst q) + C)) with ((bu - bl) * snd q * (g (fst (f q)) - h (fst q)) + (A - (bu - bl) * C)) by ring.
  eapply Rle_trans; [apply Rabs_triang|]. assert (L : Rabs (g (fst (f q)) - h (fst q)) <= M * eps2).
  { unfold h. eapply Rle_trans; [apply lipschitz; [lra|nra]|]. apply Rmult_le_compat_l; assumption. }
  rewrite Rabs_mult, (Rabs_pos_eq ((bu - bl) * snd q)) by (apply Rmult_le_pos; lra).
  assert ((bu - bl) * snd q * Rabs (g (fst (f q)) - h (fst q)) <= (bu - bl) * snd q * (M * eps2)) by (apply Rmult_le_compat_l; [apply Rmult_le_pos; lra|exact L]). lra.
Qed.
Lemma axis_quadrature : Rabs (quadrature (map f (real_rule l)) g - (G bu - G bl)) <= (bu - bl) * B * axis_error d.
Proof.
  destruct box_in as (B1 & B2 & B3). assert (A1 := moved_quadrature (real_rule l) (fun q I => I)). assert (A2 := rule_quadrature). destruct weights_fine as (_ & W). pose proof B_nonneg as B0. pose proof w_pos as W0.
  assert (EF : F 1 - F 0 = (G bu - G bl) / (bu - bl)) by (unfold F; rewrite Rmult_1_r, Rmult_0_r, Rplus_0_r; replace (bl + (bu - bl)) with bu by ring; unfold Rdiv; ring).
  set (Q1 := quadrature (map f (real_rule l)) g) in *. set (Q2 := quadrature (real_rule l) h) in *. set (Q3 := quadrature (real_rule l) (fun _ => 1)) in *. clearbody Q1 Q2 Q3.
  assert (A3 : Rabs ((bu - bl) * Q2 - (G bu - G bl)) <= (bu - bl) * (/ 10 ^ 13 * B)).
  { replace ((bu - bl) * Q2 - (G bu - G bl)) with ((bu - bl) * (Q2 - (F 1 - F 0))) by (rewrite EF; field; lra). rewrite Rabs_mult, Rabs_pos_eq by lra. apply Rmult_le_compat_l; [lra|exact A2]. }
  replace (Q1 - (G bu - G bl)) with ((Q1 - (bu - bl) * Q2) + ((bu - bl) * Q2 - (G bu - G bl))) by ring.
  eapply Rle_trans; [apply Rabs_triang|]. assert (A4 : (bu - bl) * (M * eps2) * Q3 <= (bu - bl) * B * (/ 10 ^ 9 / d)).
  { assert (Me : M * eps2 = B * (9 * / 10 ^ 10 / d)) by (unfold M, eps2; field; lra).
    assert (N0 : 0 <= (bu - bl) * B) by (apply Rmult_le_pos; lra). assert (D0 : 0 < / d) by (apply Rinv_0_lt_compat, W0).
    rewrite Me. replace ((bu - bl) * (B * (9 * / 10 ^ 10 / d)) * Q3) with ((bu - bl) * B * (9 * / 10 ^ 10 * Q3 / d)) by (unfold Rdiv; ring). apply Rmult_le_compat_l; [exact N0|]. unfold Rdiv. apply Rmult_le_compat_r; [lra|].
    replace (/ 10 ^ 9) with (/ 10 ^ 10 * 10) by field. assert (0 < / 10 ^ 10) by (apply Rinv_0_lt_compat, pow_lt; lra). assert (Q3 <= 1 + / 9) by (assert (/ 10 ^ 13 <= / 9) by (apply Rinv_le_contravar; lra); lra). nra. }
  unfold axis_error. lra.
Qed.
Lemma axis_integral : Rabs (G bu - G bl) <= (bu - bl) * B.
Proof. destruct box_in as (B1 & B2 & B3). apply integral_bound; assumption. Qed.
End Axis.
