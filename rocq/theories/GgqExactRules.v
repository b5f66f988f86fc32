(** From sums over the points of a rule to sums over knot spans, and from the check to the error of the rule. *)
From Coq Require Import Arith ZArith Reals QArith Qreals List Bool Lra Lia.
From Verif Require Import SplineSpec Ggq1dModel Ggq1dProofs Ggq1dAll GgqExactCheck.
Import ListNotations.
Local Open Scope R_scope.

(** ** sums over rational rules *)
Definition gs (l : qrule) (g : R -> R) : R := fold_right (fun q s => Q2R (snd q) * g (Q2R (fst q)) + s) 0 l.
Lemma gs_ext l g h : (forall x, g x = h x) -> gs l g = gs l h.
Proof. intros H. induction l as [|q l IH]; [reflexivity|]. cbn [gs fold_right]. fold (gs l g). fold (gs l h). rewrite H, IH. reflexivity. Qed.
Lemma gs_app a b g : gs (a ++ b) g = gs a g + gs b g.
Proof. induction a as [|q a IH]; cbn [app gs fold_right]; [fold (gs b g); ring|]. fold (gs (a ++ b) g). fold (gs a g). rewrite IH. ring. Qed.
Lemma gs_rev l g : gs (rev l) g = gs l g.
Proof. induction l as [|q l IH]; [reflexivity|]. cbn [rev]. rewrite gs_app, IH. cbn [gs fold_right]. fold (gs l g). ring. Qed.
Lemma Q2R_ofnat n : Q2R (ofnat n) = INR n.
Proof. unfold ofnat, Q2R, inject_Z. cbn [Qnum Qden]. rewrite <- INR_IZR_INZ. field. Qed.
Lemma gs_shift a l g : gs (shift a l) g = gs l (fun x => g (x + Q2R a)).
Proof. induction l as [|q l IH]; [reflexivity|]. cbn [shift map gs fold_right fst snd]. fold (shift a l). fold (gs (shift a l) g). rewrite IH, Q2R_plus. reflexivity. Qed.
Lemma gs_flip e l g : gs (flip e l) g = gs l (fun x => g (INR e - x)).
Proof. induction l as [|q l IH]; [reflexivity|]. cbn [flip map gs fold_right fst snd]. fold (flip e l). fold (gs (flip e l) g). rewrite IH, Q2R_minus, Q2R_ofnat. reflexivity. Qed.
Lemma gs_scale e l g : (0 < e)%nat -> gs (scale e l) g = / INR e * gs l (fun x => g (x / INR e)).
Proof.
  intros He. assert (HE : 0 < INR e) by (apply lt_0_INR; exact He). assert (HN : ~ (ofnat e == 0)%Q). { intros H. apply Qeq_eqR in H. rewrite Q2R_ofnat in H. unfold Q2R in H. cbn in H. lra. }
  induction l as [|q l IH]; [cbn; ring|]. cbn [scale map gs fold_right fst snd]. fold (scale e l). fold (gs (scale e l) g). fold (gs l (fun x => g (x / INR e))).
  rewrite IH, !Q2R_mult, Q2R_inv, Q2R_ofnat by exact HN. unfold Rdiv. ring.
Qed.

(** ** sums over numerators *)
Definition zs (den : Z) (l : list (Z * Z)) (g : R -> R) : R := contribution den l g.
Lemma zs_app den a b g : zs den (a ++ b) g = zs den a g + zs den b g.
Proof. unfold zs, contribution. induction a as [|q a IH]; cbn [app fold_right]; [ring|]. rewrite IH. ring. Qed.
Lemma zs_ext den l g h : (forall x, g x = h x) -> zs den l g = zs den l h.
Proof. intros H. unfold zs, contribution. induction l as [|q l IH]; [reflexivity|]. cbn [fold_right]. rewrite H, IH. reflexivity. Qed.
Lemma zs_rev den l g : zs den (rev l) g = zs den l g.
Proof. induction l as [|q l IH]; [reflexivity|]. cbn [rev]. rewrite zs_app, IH. unfold zs, contribution. cbn [fold_right]. ring. Qed.
Lemma Q2R_over c z : Q2R (over c z) = IZR z / IZR (Z.pos c).
Proof. reflexivity. Qed.
Lemma near_gs c l zl g : Forall2 (near c) l zl -> gs l g = zs (Z.pos c) zl g.
Proof.
  induction 1 as [|q z l zl (Hx & Hw) H IH]; [reflexivity|]. unfold zs, contribution in *. cbn [gs fold_right]. fold (gs l g). rewrite IH. apply Qeq_eqR in Hx. apply Qeq_eqR in Hw. rewrite Hx, Hw, !Q2R_over. reflexivity.
Qed.
Definition zshift (d : Z) (l : list (Z * Z)) : list (Z * Z) := map (fun q => ((fst q + d)%Z, snd q)) l.
Definition zflip (d : Z) (l : list (Z * Z)) : list (Z * Z) := map (fun q => ((d - fst q)%Z, snd q)) l.
Lemma zs_shift den d l g : (0 < den)%Z -> zs den (zshift d l) g = zs den l (fun x => g (x + IZR d / IZR den)).
Proof.
  intros Hd. assert (0 < IZR den) by (apply IZR_lt; exact Hd). unfold zs, contribution, zshift. induction l as [|q l IH]; [reflexivity|]. cbn [map fold_right fst snd]. rewrite IH. f_equal. f_equal. f_equal. rewrite plus_IZR. field. lra.
Qed.
Lemma zs_flip den d l g : (0 < den)%Z -> zs den (zflip d l) g = zs den l (fun x => g (IZR d / IZR den - x)).
Proof.
  intros Hd. assert (0 < IZR den) by (apply IZR_lt; exact Hd). unfold zs, contribution, zflip. induction l as [|q l IH]; [reflexivity|]. cbn [map fold_right fst snd]. rewrite IH. f_equal. f_equal. f_equal. rewrite minus_IZR. field. lra.
Qed.

(** ** sums over spans *)
Fixpoint spans (den : Z) (off : R) (es : list span) (g : R -> R) : R :=
  match es with [] => 0 | rho :: es => contribution den rho (fun t => g (off + t)) + spans den (off + 1) es g end.
Lemma spans_app den a : forall off b g, spans den off (a ++ b) g = spans den off a g + spans den (off + INR (length a)) b g.
Proof.
  induction a as [|rho a IH]; intros off b g; cbn [app spans]; [change (length (@nil span)) with 0%nat; cbn [INR]; rewrite !Rplus_0_r, Rplus_0_l; reflexivity|].
  rewrite IH. cbn [length]. rewrite S_INR. replace (off + 1 + INR (length a)) with (off + (INR (length a) + 1)) by ring. ring.
Qed.
Lemma spans_ext den es : forall off g h, (forall x, g x = h x) -> spans den off es g = spans den off es h.
Proof. induction es as [|rho es IH]; intros off g h H; [reflexivity|]. cbn [spans]. rewrite (IH _ g h H). f_equal. apply (zs_ext den rho). intros x. apply H. Qed.
Lemma spans_shift den es : forall off a g, spans den (off + a) es g = spans den off es (fun x => g (x + a)).
Proof.
  induction es as [|rho es IH]; intros off a g; [reflexivity|]. cbn [spans]. replace (off + a + 1) with (off + 1 + a) by ring. rewrite IH. f_equal. apply (zs_ext den rho). intros x. f_equal. ring.
Qed.
(** mirrored spans *)
Definition mir1 (den : Z) (rho : span) : span := zflip den (rev rho).
Definition mir (den : Z) (es : list span) : list span := rev (map (mir1 den) es).
Lemma mir_length den es : length (mir den es) = length es.
Proof. unfold mir. rewrite rev_length, map_length. reflexivity. Qed.
Lemma mir_app den a b : mir den (a ++ b) = mir den b ++ mir den a.
Proof. unfold mir. rewrite map_app, rev_app_distr. reflexivity. Qed.
Lemma spans_mir den es : (0 < den)%Z -> forall off E g, spans den (E - off - INR (length es)) (mir den es) g = spans den off es (fun x => g (E - x)).
Proof.
  intros Hd. assert (HD : 0 < IZR den) by (apply IZR_lt; exact Hd). induction es as [|rho es IH]; intros off E g; [reflexivity|]. unfold mir. cbn [map rev]. fold (mir den es). rewrite spans_app, mir_length. cbn [length]. rewrite S_INR.
  replace (E - off - (INR (length es) + 1)) with (E - (off + 1) - INR (length es)) by ring. rewrite IH. cbn [spans]. rewrite Rplus_0_r.
  replace (contribution den (mir1 den rho) (fun t => g (E - (off + 1) - INR (length es) + INR (length es) + t))) with (contribution den rho (fun t => g (E - (off + t)))); [ring|].
  unfold mir1. change contribution with zs. rewrite zs_flip by exact Hd. rewrite zs_rev. apply zs_ext. intros x. f_equal. replace (IZR den / IZR den) with 1 by (field; lra). ring.
Qed.
Lemma mir_times den n es : mir den (times n es) = times n (mir den es).
Proof.
  assert (C : forall n (l : list span), times n l ++ l = l ++ times n l). { clear. induction n as [|n IH]; intros l; [cbn; rewrite app_nil_r; reflexivity|]. cbn [times]. rewrite <- app_assoc, IH. reflexivity. }
  induction n as [|n IH]; [reflexivity|]. cbn [times]. rewrite mir_app, IH. apply C.
Qed.
(** points, in order, split into s spans; the last span takes all that remain *)
Fixpoint below (b : Z) (l : list (Z * Z)) : list (Z * Z) * list (Z * Z) :=
  match l with
  | [] => ([], [])
  | q :: l' => if (fst q <? b)%Z then let (a, r) := below b l' in (q :: a, r) else ([], l)
  end.
Fixpoint cut (den : Z) (s : nat) (base : Z) (l : list (Z * Z)) : list span :=
  match s with
  | O => []
  | S s' => match s' with
            | O => [zshift (- base) l]
            | S _ => let (a, r) := below (base + den) l in zshift (- base) a :: cut den s' (base + den) r
            end
  end.
Lemma below_app b l : fst (below b l) ++ snd (below b l) = l.
Proof. induction l as [|q l IH]; [reflexivity|]. cbn [below]. destruct (fst q <? b)%Z; [|reflexivity]. destruct (below b l) as (a, r). cbn [fst snd app] in *. rewrite IH. reflexivity. Qed.
Lemma cut_length den s : forall base l, length (cut den s base l) = s.
Proof. induction s as [|s IH]; intros base l; [reflexivity|]. cbn [cut]. destruct s as [|s]; [reflexivity|]. destruct (below (base + den) l) as (a, r). cbn [length]. rewrite IH. reflexivity. Qed.
Lemma cut_spans den : (0 < den)%Z -> forall s base l g, (0 < s)%nat -> spans den (IZR base / IZR den) (cut den s base l) g = zs den l g.
Proof.
  intros Hd. assert (HD : 0 < IZR den) by (apply IZR_lt; exact Hd).
  assert (Z1 : forall base a g, contribution den (zshift (- base) a) (fun t => g (IZR base / IZR den + t)) = zs den a g).
  { intros base a g. change contribution with zs. rewrite zs_shift by exact Hd. apply zs_ext. intros x. f_equal. rewrite opp_IZR. field. lra. }
  induction s as [|s IH]; intros base l g Hs; [lia|]. cbn [cut]. destruct s as [|s].
  - cbn [spans]. rewrite Z1. ring.
  - pose proof (below_app (base + den) l) as Hl. destruct (below (base + den) l) as (a, r). cbn [fst snd] in Hl. change (spans den (IZR base / IZR den) (zshift (- base) a :: cut den (S s) (base + den) r) g) with
      (contribution den (zshift (- base) a) (fun t => g (IZR base / IZR den + t)) + spans den (IZR base / IZR den + 1) (cut den (S s) (base + den) r) g). rewrite Z1.
    replace (IZR base / IZR den + 1) with (IZR (base + den) / IZR den) by (rewrite plus_IZR; field; lra). rewrite IH by lia. rewrite <- Hl, zs_app. reflexivity.
Qed.

(** ** the exact integral *)
Lemma value_integral c : exists A, A 1 - A 0 = integral c /\ forall t, derivable_pt_lim A t (value c t).
Proof.
  assert (G : forall j, exists A, A 1 - A 0 = lin (fun i => / INR (S i)) j c /\ forall t, derivable_pt_lim A t (t ^ j * value c t)).
  { induction c as [|a c IH]; intros j.
    - exists (fun _ => 0). split; [cbn; ring|]. intros t. cbn [value fold_right]. replace (t ^ j * 0) with 0 by ring. apply derivable_pt_lim_const.
    - destruct (IH (S j)) as (A & E & D). assert (HJ : 0 < INR (S j)) by (apply lt_0_INR; lia). exists (fun t => a * / INR (S j) * t ^ S j + A t). split.
      + cbn [lin]. rewrite <- E. cbn [pow]. rewrite pow1. ring.
      + intros t. cbn [value fold_right]. fold (value c t). replace (t ^ j * (a + t * value c t)) with (a * / INR (S j) * (INR (S j) * t ^ pred (S j)) + t ^ S j * value c t) by (cbn [pred pow]; field; lra).
        apply (derivable_pt_lim_plus (fun t => a * / INR (S j) * t ^ S j) A); [|apply D]. apply (derivable_pt_lim_scal (fun t => t ^ S j)). apply derivable_pt_lim_pow. }
  destruct (G 0%nat) as (A & E & D). exists A. split; [exact E|]. intros t. specialize (D t). cbn [pow] in D. rewrite Rmult_1_l in D. exact D.
Qed.
Lemma same_difference F G f a b : a <= b -> (forall x, a <= x <= b -> continuity_pt F x) -> (forall x, a < x < b -> derivable_pt_lim F x (f x)) -> (forall x, a <= x <= b -> derivable_pt_lim G x (f x)) -> F b - F a = G b - G a.
Proof.
  intros Hab CF DF DG. pose (H := fun x => F x - G x).
  assert (DH : forall x, a < x < b -> derivable_pt_lim H x 0). { intros x Hx. unfold H. replace 0 with (f x - f x) by ring. apply (derivable_pt_lim_minus F G); [apply DF; exact Hx|apply DG; lra]. }
  assert (pr : forall x, a < x < b -> derivable_pt H x) by (intros x Hx; exists 0; apply DH; exact Hx).
  assert (CH : forall x, a <= x <= b -> continuity_pt H x).
  { intros x Hx. apply (continuity_pt_minus F G); [apply CF; exact Hx|]. apply derivable_continuous_pt. exists (f x). apply DG. exact Hx. }
  assert (Z0 : forall x P, derive_pt H x (pr x P) = 0) by (intros x P; apply derive_pt_eq_0; apply DH; exact P).
  pose proof (null_derivative_loc H a b pr CH Z0) as N. specialize (N b ltac:(lra)). unfold H in N. lra.
Qed.
Lemma piece_integral e P f F i : (i < e)%nat -> has_pieces e P f -> antiderivative F f -> F (INR (S i) / INR e) - F (INR i / INR e) = / INR e * integral (P i).
Proof.
  intros Hi HP (C & D). assert (HE : 0 < INR e) by (apply lt_0_INR; lia). assert (HI : 0 < / INR e) by (apply Rinv_0_lt_compat; exact HE).
  destruct (value_integral (P i)) as (A & EA & DA). rewrite <- EA.
  assert (B0 : 0 <= INR i / INR e) by (apply Rmult_le_pos; [apply pos_INR|lra]).
  assert (B1 : INR (S i) / INR e <= 1). { apply Rmult_le_reg_r with (INR e); [exact HE|]. unfold Rdiv. rewrite Rmult_assoc, Rinv_l by lra. rewrite Rmult_1_r, Rmult_1_l. apply le_INR. lia. }
  assert (B2 : INR i / INR e <= INR (S i) / INR e) by (apply Rmult_le_compat_r; [lra|apply le_INR; lia]).
  rewrite (same_difference F (fun x => / INR e * A (INR e * x - INR i)) (fun x => value (P i) (INR e * x - INR i)) (INR i / INR e) (INR (S i) / INR e)).
  - replace (INR e * (INR (S i) / INR e) - INR i) with 1 by (rewrite S_INR; field; lra). replace (INR e * (INR i / INR e) - INR i) with 0 by (field; lra). ring.
  - exact B2.
  - intros x Hx. apply C. lra.
  - intros x Hx. rewrite <- (HP i x Hi) by lra. apply D. lra.
  - intros x _. replace (value (P i) (INR e * x - INR i)) with (/ INR e * (value (P i) (INR e * x - INR i) * INR e)) by (field; lra).
    apply (derivable_pt_lim_scal (fun x => A (INR e * x - INR i))). apply (derivable_pt_lim_comp (fun x => INR e * x - INR i) A); [|apply DA].
    assert (DL : derivable_pt_lim (fun x => INR e * x - INR i) x (INR e * 1 - 0)).
    { apply (derivable_pt_lim_minus (fun x => INR e * x) (fun _ => INR i)); [|apply derivable_pt_lim_const]. apply (derivable_pt_lim_scal (fun x => x)). apply derivable_pt_lim_id. }
    replace (INR e * 1 - 0) with (INR e) in DL by ring. exact DL.
Qed.

(** ** the error of a rule given by spans *)
Lemma pieces_sum den e P f F (es : list span) : has_pieces e P f -> antiderivative F f -> (0 < den)%Z -> forall i, (i + length es <= e)%nat -> Forall (fun rho => forallb (in_range den) rho = true) es ->
  spans den (INR i) es (fun x => f (x / INR e)) - INR e * (F (INR (i + length es) / INR e) - F (INR i / INR e)) = errors den es i P.
Proof.
  intros HP HF Hd. assert (HD : 0 < IZR den) by (apply IZR_lt; exact Hd). induction es as [|rho es IH]; intros i Hi Hr.
  - cbn [spans errors length]. rewrite Nat.add_0_r. ring.
  - inversion Hr as [|? ? Hr1 Hr2]; subst. cbn [length] in *. assert (HE : 0 < INR e) by (apply lt_0_INR; lia). assert (HI : 0 < / INR e) by (apply Rinv_0_lt_compat; exact HE).
    cbn [spans errors]. rewrite <- (IH (S i) ltac:(lia) Hr2). rewrite <- S_INR.
    assert (E1 : contribution den rho (fun t => f ((INR i + t) / INR e)) = contribution den rho (value (P i))).
    { clear IH Hr. unfold contribution. induction rho as [|q rho IH]; [reflexivity|]. cbn [forallb] in Hr1. apply andb_true_iff in Hr1. destruct Hr1 as (Hq & Hr1). cbn [fold_right]. rewrite (IH Hr1). f_equal. f_equal.
      unfold in_range in Hq. rewrite !andb_true_iff, !Z.leb_le in Hq. destruct Hq as (((Q1 & Q2) & _) & _). apply IZR_le in Q1. apply IZR_le in Q2. set (t := IZR (fst q) / IZR den).
      assert (Ht : 0 <= t <= 1). { unfold t. split; [apply Rmult_le_pos; [exact Q1|left; apply Rinv_0_lt_compat; exact HD]|]. apply Rmult_le_reg_r with (IZR den); [exact HD|]. unfold Rdiv. rewrite Rmult_assoc, Rinv_l by lra. lra. }
      rewrite (HP i) by (lia || (split; apply Rmult_le_compat_r; try lra; rewrite S_INR; lra)). f_equal. field. lra. }
    rewrite E1. pose proof (piece_integral e P f F i ltac:(lia) HP HF) as E2. replace (i + S (length es))%nat with (S i + length es)%nat by lia.
    assert (E3 : INR e * (F (INR (S i) / INR e) - F (INR i / INR e)) = integral (P i)) by (rewrite E2; field; lra). lra.
Qed.
Lemma chain_ranges p r den : forall es lam mu, chain p r den lam es mu -> Forall (fun rho => forallb (in_range den) rho = true) es.
Proof.
  induction es as [|rho es IH]; intros lam mu H; [constructor|]. inversion H as [|? ? ? ? ? _ Hs Hc]; subst. constructor; [|eapply IH; exact Hc]. unfold span_okb in Hs. rewrite !andb_true_iff in Hs. apply Hs.
Qed.
Lemma sizes_total n : forall i P, sizes n i P = total (fun j => size (P (i + j)%nat)) n.
Proof.
  assert (T : forall n f, total f (S n) = f 0%nat + total (fun j => f (S j)) n). { clear. induction n as [|n IH]; intros f; [cbn; ring|]. cbn [total] in *. rewrite IH. ring. }
  induction n as [|n IH]; intros i P; [reflexivity|]. rewrite T. cbn [sizes]. rewrite IH, Nat.add_0_r. f_equal.
  assert (X : forall n f g, (forall j, f j = g j) -> total f n = total g n) by (clear; induction n; intros f g H; [reflexivity|cbn [total]; rewrite (IHn f g H), H; reflexivity]).
  apply X. intros j. do 2 f_equal. lia.
Qed.
Definition tolerance : R := / 10 ^ 13.
Lemma slack_small : slack <= tolerance.
Proof.
  unfold slack, tolerance, S52, fs. change (2 ^ 52)%Z with 4503599627370496%Z. apply Rmult_le_reg_r with (IZR 4503599627370496 * 10 ^ 13); [apply Rmult_lt_0_compat; [apply IZR_lt; reflexivity|apply pow_lt; lra]|].
  replace (260 / IZR 4503599627370496 * (IZR 4503599627370496 * 10 ^ 13)) with (260 * 10 ^ 13) by (field; apply IZR_neq; discriminate).
  replace (/ 10 ^ 13 * (IZR 4503599627370496 * 10 ^ 13)) with (IZR 4503599627370496) by (field; apply pow_nonzero; lra). replace (10 ^ 13) with 10000000000000 by (cbn [pow]; ring). lra.
Qed.
Lemma size_nonneg c : 0 <= size c.
Proof. unfold size. induction c as [|a c IH]; cbn [fold_right]; [lra|]. pose proof (Rabs_pos a). lra. Qed.
Lemma sizes_nonneg n : forall i P, 0 <= sizes n i P.
Proof. induction n as [|n IH]; intros i P; cbn [sizes]; [lra|]. pose proof (size_nonneg (P i)). specialize (IH (S i) P). lra. Qed.
Lemma rule_error p r den (es : list span) e P f F (s : R) : (0 < den)%Z -> (p <= 8)%nat -> (r <= 2)%nat -> (0 < e)%nat -> length es = e -> chain p r den [] es [] -> spline_pieces p r e P -> has_pieces e P f -> antiderivative F f ->
  s = / INR e * spans den 0 es (fun x => f (x / INR e)) -> Rabs (s - (F 1 - F 0)) <= tolerance * (total (fun i => size (P i)) e / INR e).
Proof.
  intros Hd Hp Hr He Hl Hc HS HP HF Es. assert (HE : 0 < INR e) by (apply lt_0_INR; exact He). assert (HI : 0 < / INR e) by (apply Rinv_0_lt_compat; exact HE).
  pose proof (pieces_sum den e P f F es HP HF Hd 0%nat ltac:(lia) (chain_ranges _ _ _ _ _ _ Hc)) as E. cbn [Nat.add] in E. rewrite Hl in E. change (INR 0) with 0 in E.
  replace (INR e / INR e) with 1 in E by (field; lra). replace (0 / INR e) with 0 in E by (unfold Rdiv; ring).
  pose proof (chain_closed p r den es P Hd Hp Hr ltac:(intros ->; cbn in Hl; lia) Hc ltac:(rewrite Hl; exact HS)) as B. rewrite <- E in B. rewrite Hl, sizes_total in B. cbn [Nat.add] in B.
  replace (s - (F 1 - F 0)) with (/ INR e * (spans den 0 es (fun x => f (x / INR e)) - INR e * (F 1 - F 0))) by (rewrite Es; field; lra). rewrite Rabs_mult, (Rabs_right (/ INR e)) by lra.
  pose proof (sizes_nonneg e 0 P) as N. rewrite sizes_total in N. cbn [Nat.add] in N. pose proof slack_small.
  unfold Rdiv. rewrite (Rmult_comm (/ INR e)), <- Rmult_assoc. apply Rmult_le_compat_r; [lra|]. eapply Rle_trans; [exact B|]. apply Rmult_le_compat_r; assumption.
Qed.
