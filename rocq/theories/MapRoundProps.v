(** Property C78: the maps between global and parametric coordinates computed in double precision. *)
From Coq Require Import Reals ZArith Lia Lra.
From Flocq Require Import Core Relative.
From Verif Require Import Geo GgqModel MappingModel GridRoundModel GridRoundProofs GridRoundProps ClipRoundProofs MapRoundModel MapRoundProofs.
Local Open Scope R_scope.
Notation width := MapRoundProofs.width.

(** ** Specification. *)
(** The exact affine map of one coordinate. *)
Definition exact (from to : box) (a : axis) (x : R) : R := at_ a (lower to) + (x - at_ a (lower from)) / (at_ a (upper from) - at_ a (lower from)) * (at_ a (upper to) - at_ a (lower to)).
(** Volume of a box. *)
Definition volume (b : box) : R := (at_ AX (upper b) - at_ AX (lower b)) * (at_ AY (upper b) - at_ AY (lower b)) * (at_ AZ (upper b) - at_ AZ (lower b)).
(** Boxes that are neither tiny nor huge. *)
Definition moderate (b : box) : Prop := forall a, bpow radix2 (-100) <= at_ a (upper b) - at_ a (lower b) <= bpow radix2 100.
Definition inside (b : box) (p : pt) : Prop := forall a, at_ a (lower b) <= at_ a p <= at_ a (upper b).
(** One unit of error: 2^-49 of the size of the coordinates. *)
Definition ulps (b : box) (a : axis) : R := (Rabs (at_ a (lower b)) + Rabs (at_ a (upper b))) / 562949953421312.
Definition fits (x y : R) (bits : R) : Prop := Rabs (x - y) <= y / bits.

Lemma ulps_eq b a : ulps b a = 16 * u * (Rabs (at_ a (lower b)) + Rabs (at_ a (upper b))). Proof. unfold ulps, u. lra. Qed.
Lemma ulps_pos b a : 0 <= ulps b a. Proof. unfold ulps. pose proof (Rabs_pos (at_ a (lower b))). pose proof (Rabs_pos (at_ a (upper b))). lra. Qed.
Lemma at_map contract from to p a : at_ a (map_d contract from to p) = coord_d contract from to a (at_ a p). Proof. destruct a; reflexivity. Qed.
Lemma wide b a : moderate b -> 0 < at_ a (upper b) - at_ a (lower b). Proof. intros M. pose proof (M a). pose proof (bpow_gt_0 radix2 (-100)). lra. Qed.

(** The lower corners are mapped to each other exactly. *)
Theorem C78_corner : forall contract b,
  (doubles (lower (eb_param b)) -> to_parametric_d contract (lower (eb_global b)) b = lower (eb_param b)) /\
  (doubles (lower (eb_global b)) -> to_global_d contract (lower (eb_param b)) b = lower (eb_global b)).
Proof.
  intros contract b. split; intros D; unfold to_parametric_d, to_global_d, map_d.
  - pose proof (coord_lower contract (eb_global b) (eb_param b)) as C. pose proof (C AX (D AX)) as X. pose proof (C AY (D AY)) as Y. pose proof (C AZ (D AZ)) as Z. cbn [at_] in X, Y, Z. rewrite X, Y, Z. destruct (lower (eb_param b)). reflexivity.
  - pose proof (coord_lower contract (eb_param b) (eb_global b)) as C. pose proof (C AX (D AX)) as X. pose proof (C AY (D AY)) as Y. pose proof (C AZ (D AZ)) as Z. cbn [at_] in X, Y, Z. rewrite X, Y, Z. destruct (lower (eb_global b)). reflexivity.
Qed.
Print Assumptions C78_corner.

(** The order of coordinates is never reversed. *)
Theorem C78_monotone : forall contract b p q a, at_ a p <= at_ a q ->
  at_ a (to_parametric_d contract p b) <= at_ a (to_parametric_d contract q b) /\ at_ a (to_global_d contract p b) <= at_ a (to_global_d contract q b).
Proof. intros contract b p q a H. unfold to_parametric_d, to_global_d. rewrite !at_map. split; apply coord_le, H. Qed.
Print Assumptions C78_monotone.

(** The maps are close to the exact ones, also a little outside the boxes. *)
Lemma close contract from to p a : moderate from -> moderate to -> Rabs (at_ a p - at_ a (lower from)) <= 2 * (at_ a (upper from) - at_ a (lower from)) -> Rabs (at_ a (map_d contract from to p) - exact from to a (at_ a p)) <= ulps to a.
Proof.
  intros F T H. pose proof (wide from a F) as W. rewrite at_map, ulps_eq. pose proof (coord_error contract from to a (at_ a p) F T H) as E. unfold MapRoundProofs.width in E. unfold exact. replace (at_ a (lower to) + (at_ a p - at_ a (lower from)) / (at_ a (upper from) - at_ a (lower from)) * (at_ a (upper to) - at_ a (lower to))) with ((at_ a p - at_ a (lower from)) * ((at_ a (upper to) - at_ a (lower to)) / (at_ a (upper from) - at_ a (lower from))) + at_ a (lower to)) by (field; lra). exact E.
Qed.
Lemma inside_near b p a : moderate b -> inside b p -> Rabs (at_ a p - at_ a (lower b)) <= 2 * (at_ a (upper b) - at_ a (lower b)).
Proof. intros M I. specialize (I a). pose proof (wide b a M). rewrite Rabs_pos_eq; lra. Qed.
Theorem C78_close : forall contract b, moderate (eb_global b) -> moderate (eb_param b) ->
  (forall p, inside (eb_global b) p -> forall a, Rabs (at_ a (to_parametric_d contract p b) - exact (eb_global b) (eb_param b) a (at_ a p)) <= ulps (eb_param b) a) /\
  (forall p, inside (eb_param b) p -> forall a, Rabs (at_ a (to_global_d contract p b) - exact (eb_param b) (eb_global b) a (at_ a p)) <= ulps (eb_global b) a).
Proof. intros contract b G P. split; intros p I a; apply close; try assumption; apply inside_near; assumption. Qed.
Print Assumptions C78_close.

(** Points of one box are mapped to points of the other one: exactly above its lower faces, and up to the error below its upper faces. *)
Lemma exact_upper from to a : moderate from -> exact from to a (at_ a (upper from)) = at_ a (upper to).
Proof. intros M. pose proof (wide from a M). unfold exact. field. lra. Qed.
Lemma lands contract from to p : moderate from -> moderate to -> doubles (lower to) -> inside from p -> forall a, at_ a (lower to) <= at_ a (map_d contract from to p) <= at_ a (upper to) + ulps to a.
Proof.
  intros F T D I a. pose proof (I a) as Ia. rewrite at_map. split.
  - rewrite <- (coord_lower contract from to a (D a)) at 1. apply coord_le, Ia.
  - eapply Rle_trans; [apply coord_le, Ia|]. pose proof (wide from a F). pose proof (close contract from to (upper from) a F T) as C. rewrite at_map, exact_upper in C by exact F. specialize (C ltac:(rewrite Rabs_pos_eq; lra)). apply Rabs_le_inv in C. lra.
Qed.
Theorem C78_inside : forall contract b, moderate (eb_global b) -> moderate (eb_param b) ->
  (doubles (lower (eb_param b)) -> forall p, inside (eb_global b) p -> forall a, at_ a (lower (eb_param b)) <= at_ a (to_parametric_d contract p b) <= at_ a (upper (eb_param b)) + ulps (eb_param b) a) /\
  (doubles (lower (eb_global b)) -> forall p, inside (eb_param b) p -> forall a, at_ a (lower (eb_global b)) <= at_ a (to_global_d contract p b) <= at_ a (upper (eb_global b)) + ulps (eb_global b) a).
Proof. intros contract b G P. split; intros D p I a; apply lands; assumption. Qed.
Print Assumptions C78_inside.

(** There and back: the errors of both maps, the first one scaled. *)
Lemma exact_back from to a x : moderate from -> moderate to -> exact to from a (exact from to a x) = x.
Proof. intros F T. pose proof (wide from a F). pose proof (wide to a T). unfold exact. field. lra. Qed.
Lemma exact_diff from to a x y : moderate from -> exact from to a x - exact from to a y = (x - y) * ((at_ a (upper to) - at_ a (lower to)) / (at_ a (upper from) - at_ a (lower from))).
Proof. intros F. pose proof (wide from a F). unfold exact. field. lra. Qed.
Lemma there_back contract from to p a : moderate from -> moderate to -> inside from p -> ulps to a <= at_ a (upper to) - at_ a (lower to) ->
  Rabs (at_ a (map_d contract to from (map_d contract from to p)) - at_ a p) <= ulps from a + ulps to a * ((at_ a (upper from) - at_ a (lower from)) / (at_ a (upper to) - at_ a (lower to))).
Proof.
  intros F T I R0. pose proof (wide from a F) as Wf. pose proof (wide to a T) as Wt. pose proof (close contract from to p a F T (inside_near from p a F I)) as C1. set (q := map_d contract from to p) in *. pose proof (I a) as Ia.
  assert (B : at_ a (lower to) <= exact from to a (at_ a p) <= at_ a (upper to)). { unfold exact. set (r := (at_ a p - at_ a (lower from)) / (at_ a (upper from) - at_ a (lower from))). assert (Hr : 0 <= r <= 1). { unfold r. split; [apply Rmult_le_pos; [lra|left; apply Rinv_0_lt_compat; lra]|]. apply Rmult_le_reg_r with (at_ a (upper from) - at_ a (lower from)); [lra|]. unfold Rdiv. rewrite Rmult_assoc, Rinv_l by lra. lra. } pose proof (Rmult_le_pos r (at_ a (upper to) - at_ a (lower to)) ltac:(lra) ltac:(lra)). pose proof (Rmult_le_compat_r (at_ a (upper to) - at_ a (lower to)) r 1 ltac:(lra) ltac:(lra)). lra. }
  assert (N : Rabs (at_ a q - at_ a (lower to)) <= 2 * (at_ a (upper to) - at_ a (lower to))). { apply Rabs_le_inv in C1. apply Rabs_le. lra. }
  pose proof (close contract to from q a T F N) as C2. rewrite <- (exact_back from to a (at_ a p) F T) at 1. replace (at_ a (map_d contract to from q) - exact to from a (exact from to a (at_ a p))) with ((at_ a (map_d contract to from q) - exact to from a (at_ a q)) + (exact to from a (at_ a q) - exact to from a (exact from to a (at_ a p)))) by ring.
  eapply Rle_trans; [apply Rabs_triang|]. apply Rplus_le_compat; [exact C2|]. rewrite exact_diff by exact T. rewrite Rabs_mult. assert (S : 0 <= (at_ a (upper from) - at_ a (lower from)) / (at_ a (upper to) - at_ a (lower to))) by (apply Rlt_le, Rdiv_lt_0_compat; assumption). rewrite (Rabs_pos_eq _ S). apply Rmult_le_compat_r; assumption.
Qed.
Theorem C78_round_trip : forall contract b p, moderate (eb_global b) -> moderate (eb_param b) -> inside (eb_global b) p -> forall a, ulps (eb_param b) a <= at_ a (upper (eb_param b)) - at_ a (lower (eb_param b)) ->
  Rabs (at_ a (to_global_d contract (to_parametric_d contract p b) b) - at_ a p) <=
  ulps (eb_global b) a + ulps (eb_param b) a * ((at_ a (upper (eb_global b)) - at_ a (lower (eb_global b))) / (at_ a (upper (eb_param b)) - at_ a (lower (eb_param b)))).
Proof. intros contract b p G P I a H. apply there_back; assumption. Qed.
Print Assumptions C78_round_trip.

(** Determinant and weights. *)
Definition usual (w : R) : Prop := bpow radix2 (-300) <= w <= bpow radix2 300.
Definition jac (b : ebounds) : R := volume (eb_global b) / volume (eb_param b).
Lemma jac_eq b : moderate (eb_param b) -> width (eb_global b) AX / width (eb_param b) AX * (width (eb_global b) AY / width (eb_param b) AY) * (width (eb_global b) AZ / width (eb_param b) AZ) = jac b.
Proof. intros P. pose proof (wide _ AX P). pose proof (wide _ AY P). pose proof (wide _ AZ P). unfold jac, volume, MapRoundProofs.width. field. repeat split; lra. Qed.
Lemma jac_rel b : moderate (eb_global b) -> moderate (eb_param b) -> rel (12 * u) (det_j_d b) (jac b) /\ bpow radix2 (-600) <= jac b <= bpow radix2 600.
Proof. intros G P. pose proof (det_rel b G P) as D. rewrite jac_eq in D by exact P. exact D. Qed.
Lemma fits_16 x y : rel (16 * u) x y -> fits x y 562949953421312. Proof. unfold rel, fits, u. intros H. lra. Qed.
Lemma fits_32 x y : rel (32 * u) x y -> fits x y 281474976710656. Proof. unfold rel, fits, u. intros H. lra. Qed.
Lemma weight_rel b w : moderate (eb_global b) -> moderate (eb_param b) -> usual w ->
  rel (135 / 10 * u) (fl (w / det_j_d b)) (w / jac b) /\ rel (135 / 10 * u) (fl (w * det_j_d b)) (w * jac b) /\ rel (32 * u) (fl (fl (w / det_j_d b) * det_j_d b)) w.
Proof.
  intros G P [W1 W2]. destruct (jac_rel b G P) as [D [B1 B2]]. pose proof u_small as U. pose proof (bpow_gt_0 radix2 (-300)). pose proof (bpow_gt_0 radix2 (-600)). assert (Pw : 0 < w) by lra. assert (Pj : 0 < jac b) by lra. assert (UU : u * u <= 1 / 1000000 * u) by (apply Rmult_le_compat_r; lra).
  pose proof (rel_div 0 (12 * u) w w _ _ Pw Pj (rel_refl w ltac:(lra)) D ltac:(lra) ltac:(lra)) as Q. pose proof (rel_mult 0 (12 * u) w w _ _ Pw Pj (rel_refl w ltac:(lra)) D ltac:(lra) ltac:(lra)) as M.
  assert (Pq : 0 < w / jac b) by (apply Rdiv_lt_0_compat; lra). assert (Pm : 0 < w * jac b) by (apply Rmult_lt_0_compat; lra).
  assert (Bq : bpow radix2 (-900) <= w / jac b). { change (-900)%Z with (-300 + - (600))%Z. rewrite bpow_plus, bpow_opp. apply Rmult_le_compat; [lra|left; apply Rinv_0_lt_compat, bpow_gt_0|lra|apply Rinv_le_contravar; lra]. }
  assert (Bm : bpow radix2 (-900) <= w * jac b). { change (-900)%Z with (-300 + -600)%Z. rewrite bpow_plus. apply Rmult_le_compat; lra. }
  assert (A : rel (135 / 10 * u) (fl (w / det_j_d b)) (w / jac b)). { eapply rel_weak; [| |eapply rel_round; [exact Pq|exact Q|lra|]]; [lra|lra|]. eapply (normal_ge (-900 - 1)); [lia|]. eapply half_bpow; [exact Bq|eapply rel_pos; [exact Pq|exact Q|lra]]. }
  split; [exact A|split].
  - eapply rel_weak; [| |eapply rel_round; [exact Pm|exact M|lra|]]; [lra|lra|]. eapply (normal_ge (-900 - 1)); [lia|]. eapply half_bpow; [exact Bm|eapply rel_pos; [exact Pm|exact M|lra]].
  - pose proof (rel_mult _ _ _ _ _ _ Pq Pj A D ltac:(lra) ltac:(lra)) as R0. replace (w / jac b * jac b) with w in R0 by (field; lra). apply (rel_weak _ (26 * u)) in R0; [|lra|lra]. eapply rel_weak; [| |eapply rel_round; [exact Pw|exact R0|lra|]]; [lra|lra|]. eapply (normal_ge (-300 - 1)); [lia|]. eapply half_bpow; [exact W1|eapply rel_pos; [exact Pw|exact R0|lra]].
Qed.
Theorem C78_weights : forall contract b q, moderate (eb_global b) -> moderate (eb_param b) -> usual (ip_weight q) ->
  fits (det_j_d b) (jac b) 562949953421312 /\
  fits (ip_weight (ip_to_parametric_d contract q b)) (ip_weight q / jac b) 562949953421312 /\ 0 < ip_weight (ip_to_parametric_d contract q b) /\
  fits (ip_weight (ip_to_global_d contract q b)) (ip_weight q * jac b) 562949953421312 /\ 0 < ip_weight (ip_to_global_d contract q b) /\
  fits (ip_weight (ip_to_global_d contract (ip_to_parametric_d contract q b) b)) (ip_weight q) 281474976710656.
Proof.
  intros contract b q G P W. destruct (jac_rel b G P) as [D [B1 B2]]. destruct (weight_rel b (ip_weight q) G P W) as (A & M & T). pose proof u_small as U. pose proof (bpow_gt_0 radix2 (-600)). destruct W as [W1 W2]. pose proof (bpow_gt_0 radix2 (-300)).
  assert (Pq : 0 < ip_weight q / jac b) by (apply Rdiv_lt_0_compat; lra). assert (Pm : 0 < ip_weight q * jac b) by (apply Rmult_lt_0_compat; lra). cbn [ip_to_parametric_d ip_to_global_d ip_weight].
  split; [apply fits_16; eapply rel_weak; [| |exact D]; lra|]. split; [apply fits_16; eapply rel_weak; [| |exact A]; lra|]. split; [pose proof (rel_pos _ _ _ Pq A ltac:(lra)); lra|]. split; [apply fits_16; eapply rel_weak; [| |exact M]; lra|]. split; [pose proof (rel_pos _ _ _ Pm M ltac:(lra)); lra|apply fits_32, T].
Qed.
Print Assumptions C78_weights.

(** The positions of integration points are mapped like points. *)
Theorem C78_positions : forall contract b q, moderate (eb_global b) -> moderate (eb_param b) ->
  (inside (eb_global b) (ip_pos q) -> forall a, Rabs (at_ a (ip_pos (ip_to_parametric_d contract q b)) - exact (eb_global b) (eb_param b) a (at_ a (ip_pos q))) <= ulps (eb_param b) a) /\
  (inside (eb_param b) (ip_pos q) -> forall a, Rabs (at_ a (ip_pos (ip_to_global_d contract q b)) - exact (eb_param b) (eb_global b) a (at_ a (ip_pos q))) <= ulps (eb_global b) a).
Proof. intros contract b q G P. destruct (C78_close contract b G P) as [A B]. split; intros I a; [apply A|apply B]; exact I. Qed.
Print Assumptions C78_positions.

(** The upper corner of the global box can be mapped to a point outside the parametric box. *)
Definition bounds_25_7 : ebounds := EB (Box (Pt 0 0 0) (Pt 25 25 25)) (Box (Pt 0 0 0) (Pt 7 7 7)).
Lemma int_fl z : (Z.abs z <= 2 ^ 53)%Z -> fl (IZR z) = IZR z. Proof. intros H. apply fl_id, double_Z, H. Qed.
Lemma image_25 contract a : coord_d contract (eb_global bounds_25_7) (eb_param bounds_25_7) a 25 = 7881299347898369 / 1125899906842624.
Proof.
  assert (S : scale_d (eb_global bounds_25_7) (eb_param bounds_25_7) a = 5044031582654956 / 18014398509481984).
  { unfold scale_d. assert (E : at_ a (upper (eb_param bounds_25_7)) - at_ a (lower (eb_param bounds_25_7)) = 7) by (destruct a; cbn; ring). assert (E' : at_ a (upper (eb_global bounds_25_7)) - at_ a (lower (eb_global bounds_25_7)) = 25) by (destruct a; cbn; ring). rewrite E, E', (int_fl 7), (int_fl 25) by lia. rewrite !Rabs_pos_eq by lra. rewrite (fl_eq _ (-1) 5044031582654956); [cbn; lra|cbn; lra|lia|]. cbn. apply Rabs_def1; lra. }
  unfold coord_d. rewrite S. assert (L : at_ a (lower (eb_global bounds_25_7)) = 0 /\ at_ a (lower (eb_param bounds_25_7)) = 0) by (destruct a; split; reflexivity). destruct L as [-> ->]. rewrite Rminus_0_r, Rplus_0_r, (int_fl 25) by lia.
  assert (F : fl (25 * (5044031582654956 / 18014398509481984)) = 7881299347898369 / 1125899906842624). { rewrite (fl_eq _ 3 7881299347898369); [cbn; lra|cbn; lra|lia|]. cbn. apply Rabs_def1; lra. }
  destruct contract; [exact F|]. rewrite F. rewrite <- F. apply fl_id, fl_double.
Qed.
Lemma bounds_ok : moderate (eb_global bounds_25_7) /\ moderate (eb_param bounds_25_7).
Proof.
  assert (A : bpow radix2 (-100) <= 1) by (apply (bpow_le radix2 (-100) 0); lia). assert (B : 32 <= bpow radix2 100) by (apply Rle_trans with (bpow radix2 5); [cbn; lra|apply bpow_le; lia]). split; intros []; cbn [bounds_25_7 eb_global eb_param upper lower at_ px py pz]; lra.
Qed.
Theorem C78_upper_refuted : moderate (eb_global bounds_25_7) /\ moderate (eb_param bounds_25_7) /\ inside (eb_global bounds_25_7) (Pt 25 25 25) /\
  forall contract a, at_ a (upper (eb_param bounds_25_7)) < at_ a (to_parametric_d contract (Pt 25 25 25) bounds_25_7).
Proof.
  destruct bounds_ok as [A B]. split; [exact A|split; [exact B|split; [intros []; cbn; lra|]]]. intros contract a. unfold to_parametric_d. rewrite at_map. replace (at_ a (Pt 25 25 25)) with 25 by (destruct a; reflexivity). rewrite image_25. destruct a; cbn; lra.
Qed.
Print Assumptions C78_upper_refuted.
(** The hypotheses of the theorems above are met by this element. *)
Example C78_example : moderate (eb_global bounds_25_7) /\ moderate (eb_param bounds_25_7) /\ doubles (lower (eb_global bounds_25_7)) /\ doubles (lower (eb_param bounds_25_7)) /\ inside (eb_global bounds_25_7) (Pt 1 2 (1 / 3)) /\ inside (eb_param bounds_25_7) (Pt 1 2 (1 / 3)) /\ usual (1 / 3) /\
  forall a, ulps (eb_param bounds_25_7) a <= at_ a (upper (eb_param bounds_25_7)) - at_ a (lower (eb_param bounds_25_7)).
Proof.
  destruct bounds_ok as [A B]. split; [exact A|split; [exact B|]]. split; [intros []; apply (double_Z 0); lia|]. split; [intros []; apply (double_Z 0); lia|]. split; [intros []; cbn; lra|]. split; [intros []; cbn; lra|]. split.
  - split; [apply Rle_trans with (bpow radix2 (-2)); [apply bpow_le; lia|cbn; lra]|apply Rle_trans with (bpow radix2 0); [cbn; lra|apply bpow_le; lia]].
  - intros a. unfold ulps. destruct a; cbn [bounds_25_7 eb_param upper lower at_ px py pz]; rewrite Rabs_R0, Rabs_pos_eq by lra; lra.
Qed.
