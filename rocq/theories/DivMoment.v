(** The moments of trimmed elements are integrals over the enclosed region. *)
From Coq Require Import Reals QArith Qreals List Lia Lra.
From Verif Require Import Geo GgqModel MappingModel PolyModel PolyProps TrimmedQuadModel MeshModel MeshGeoModel MeshGeoProofs MeshBoxProofs TriIpModel TriIpProps
  SearchModel GeoQueryModel DomainModel DomainProps TrimmedQuadLemmas TrimmedProps DivSpec DivProofs.
Import ListNotations.
Local Open Scope R_scope.

(** *** The fields are polynomials *)
Lemma poly_ext f g : (forall p, f p = g p) -> polynomial f -> polynomial g.
Proof. intros E (e & H). exists e. intros p. rewrite <- E. apply H. Qed.
Lemma poly_const r : polynomial (fun _ => r).
Proof. exists (Cst r). reflexivity. Qed.
Lemma poly_at a : polynomial (at_ a).
Proof. exists (Var a). reflexivity. Qed.
Lemma poly_plus f g : polynomial f -> polynomial g -> polynomial (fun p => f p + g p).
Proof. intros (e & H) (e' & H'). exists (Add e e'). intros p. cbn [pev]. rewrite H, H'. reflexivity. Qed.
Lemma poly_mult f g : polynomial f -> polynomial g -> polynomial (fun p => f p * g p).
Proof. intros (e & H) (e' & H'). exists (Mul e e'). intros p. cbn [pev]. rewrite H, H'. reflexivity. Qed.
Lemma poly_opp f : polynomial f -> polynomial (fun p => - f p).
Proof. intros H. apply (poly_ext (fun p => (-1) * f p)); [intros p; ring|]. apply poly_mult; [apply poly_const | exact H]. Qed.
Lemma poly_minus f g : polynomial f -> polynomial g -> polynomial (fun p => f p - g p).
Proof. intros H H'. apply poly_plus; [exact H | apply poly_opp; exact H']. Qed.
Lemma poly_div f r : polynomial f -> polynomial (fun p => f p / r).
Proof. intros H. apply poly_mult; [exact H | apply poly_const]. Qed.
Ltac poly := repeat first [apply poly_const | assumption | apply poly_plus | apply poly_minus | apply poly_mult | apply poly_div | apply poly_opp].
Lemma poly_power n : forall f r, polynomial f -> polynomial r -> polynomial (fun p => power_loop n (r p) (f p)).
Proof. induction n as [|n IH]; intros f r Hf Hr; cbn [power_loop]; [exact Hr|]. apply (IH f (fun p => r p * f p)); [exact Hf | apply poly_mult; assumption]. Qed.
Lemma poly_pow f n : polynomial f -> polynomial (fun p => power (f p) n).
Proof. intros H. apply (poly_power n f (fun _ => 1)); [exact H | apply poly_const]. Qed.
Lemma poly_f f n a b : polynomial f -> polynomial (fun p => f_x (f p) n a b).
Proof.
  intros H. assert (T : polynomial (fun p => (2 * f p - a - b) / (b - a))) by poly.
  assert (P : forall k, polynomial (fun p => power ((2 * f p - a - b) / (b - a)) k)) by (intros k; apply (poly_pow (fun p => (2 * f p - a - b) / (b - a)) k T)).
  do 9 (destruct n as [|n]; [cbn [f_x]; repeat first [apply P | apply poly_const | assumption | apply poly_plus | apply poly_minus | apply poly_mult | apply poly_div | apply poly_opp]|]).
  apply (poly_const 0).
Qed.
Lemma poly_f_int f n a b : polynomial f -> polynomial (fun p => f_x_int (f p) n a b).
Proof.
  intros H. assert (T : polynomial (fun p => a + b - 2 * f p)) by poly.
  assert (P : forall k, polynomial (fun p => power (a + b - 2 * f p) k)) by (intros k; apply (poly_pow (fun p => a + b - 2 * f p) k T)).
  do 9 (destruct n as [|n]; [cbn [f_x_int]; repeat first [apply P | apply poly_const | assumption | apply poly_plus | apply poly_minus | apply poly_mult | apply poly_div | apply poly_opp]|]).
  apply (poly_const 0).
Qed.
Definition third (b : box) (r : nat * nat * nat) (p : pt) : pt := vscale (1 / 3) (flux b r p).
Lemma third_poly b r : polynomial (fun p => px (third b r p)) /\ polynomial (fun p => py (third b r p)) /\ polynomial (fun p => pz (third b r p)).
Proof.
  destruct r as [[i j] k]. unfold third, flux, vscale. cbn [px py pz].
  assert (X := poly_at AX). assert (Y := poly_at AY). assert (Z := poly_at AZ). cbn [at_] in X, Y, Z.
  split; [|split]; apply poly_mult; try apply poly_const; apply poly_mult; try apply poly_mult; first [apply poly_f | apply poly_f_int]; assumption.
Qed.
Lemma third_divergence b i j k : box_ok b -> (i <= 8 /\ j <= 8 /\ k <= 8)%nat -> is_divergence (third b (i, j, k)) (phi b i j k).
Proof.
  intros B L [x y z]. destruct (divergence b i j k x y z B L) as (X & Y & Z).
  exists (1 / 3 * phi b i j k (Pt x y z)), (1 / 3 * phi b i j k (Pt x y z)), (1 / 3 * phi b i j k (Pt x y z)).
  cbn [px py pz]. split; [|split; [|split]].
  - exact (derivable_pt_lim_scal (fun t => px (flux b (i, j, k) (Pt t y z))) (1 / 3) x _ X).
  - exact (derivable_pt_lim_scal (fun t => py (flux b (i, j, k) (Pt x t z))) (1 / 3) y _ Y).
  - exact (derivable_pt_lim_scal (fun t => pz (flux b (i, j, k) (Pt x y t))) (1 / 3) z _ Z).
  - lra.
Qed.

(** *** Polynomials in barycentric coordinates; the size of their coefficients *)
Definition mdeg (m : nat * nat * nat) : nat := let '(i, j, k) := m in (i + j + k)%nat.
Definition msize (l : monos) : R := sum (fun m => Rabs (fst m) * (/ 3) ^ mdeg (snd m)) l.
Definition bary (d : nat) (B : R) (h : pt -> R) : Prop :=
  exists l, (forall p, px p + py p + pz p = 1 -> h p = mev l p) /\ (forall m, In m l -> (mdeg (snd m) <= d)%nat) /\ msize l <= B.
Lemma bary_ext d B f g : (forall p, px p + py p + pz p = 1 -> f p = g p) -> bary d B f -> bary d B g.
Proof. intros E (l & H1 & H2 & H3). exists l. split; [|split; assumption]. intros p S. rewrite <- E by exact S. apply H1. exact S. Qed.
Lemma bary_weaken d d' B B' f : (d <= d')%nat -> B <= B' -> bary d B f -> bary d' B' f.
Proof. intros Hd HB (l & H1 & H2 & H3). exists l. split; [exact H1|]. split; [|lra]. intros m I. specialize (H2 m I). lia. Qed.
Lemma bary_const r : bary 0 (Rabs r) (fun _ => r).
Proof. exists [(r, (0, 0, 0)%nat)]. split; [intros p _; unfold mev, mono; cbn; ring|]. split; [intros m [<- | []]; apply le_n|]. unfold msize. cbn. lra. Qed.
Lemma bary_affine x y z M : Rabs x <= M -> Rabs y <= M -> Rabs z <= M -> bary 1 M (fun p => px p * x + py p * y + pz p * z).
Proof.
  intros X Y Z. exists [(x, (1, 0, 0)%nat); (y, (0, 1, 0)%nat); (z, (0, 0, 1)%nat)]. split; [intros p _; unfold mev, mono; cbn; ring|].
  split; [intros m [<- | [<- | [<- | []]]]; apply le_n|]. unfold msize. cbn. lra.
Qed.
Lemma bary_plus d d' B B' f g : bary d B f -> bary d' B' g -> bary (Nat.max d d') (B + B') (fun p => f p + g p).
Proof.
  intros (l & H1 & H2 & H3) (l' & H1' & H2' & H3'). exists (l ++ l'). split; [intros p S; rewrite mev_app, H1, H1' by exact S; reflexivity|]. split.
  - intros m I. apply in_app_iff in I as [I | I]; [specialize (H2 m I) | specialize (H2' m I)]; lia.
  - unfold msize. rewrite sum_app. unfold msize in *. lra.
Qed.
Lemma msize_nonneg l : 0 <= msize l.
Proof.
  unfold msize. induction l as [|m l IH]; cbn [sum]; [lra|]. assert (A := Rabs_pos (fst m)). assert (P := pow_le (/ 3) (mdeg (snd m)) ltac:(lra)). nra.
Qed.
Lemma msize_mul l r : msize (mmul l r) = msize l * msize r.
Proof.
  unfold mmul, msize. rewrite sum_flat'. induction l as [|[c [[i j] k]] l IH]; cbn [sum]; [ring|]. rewrite IH, sum_map.
  rewrite (sum_ext (fun a => Rabs (fst (mmul1 (c, (i, j, k)) a)) * (/ 3) ^ mdeg (snd (mmul1 (c, (i, j, k)) a)))
                   (fun a => Rabs c * (/ 3) ^ (i + j + k) * (Rabs (fst a) * (/ 3) ^ mdeg (snd a)))).
  - rewrite sum_scal. cbn [fst snd mdeg]. ring.
  - intros [c' [[i' j'] k']] _. unfold mmul1, mdeg. cbn [fst snd]. rewrite Rabs_mult. replace (i + i' + (j + j') + (k + k'))%nat with ((i + j + k) + (i' + j' + k'))%nat by lia.
    rewrite pow_add. ring.
Qed.
Lemma bary_mult d d' B B' f g : bary d B f -> bary d' B' g -> bary (d + d') (B * B') (fun p => f p * g p).
Proof.
  intros (l & H1 & H2 & H3) (l' & H1' & H2' & H3'). exists (mmul l l'). split; [intros p S; rewrite mev_mul, H1, H1' by exact S; reflexivity|]. split.
  - intros m I. unfold mmul in I. apply in_flat_map in I as (x & Ix & I). apply in_map_iff in I as (y & <- & Iy). specialize (H2 x Ix). specialize (H2' y Iy).
    destruct x as [c [[i j] k]], y as [c' [[i' j'] k']]. cbn [fst snd mdeg mmul1] in *. lia.
  - rewrite msize_mul. assert (A := msize_nonneg l). assert (A' := msize_nonneg l'). nra.
Qed.
Lemma bary_scal c d B f : bary d B f -> bary d (Rabs c * B) (fun p => c * f p).
Proof. intros H. exact (bary_mult 0 d _ _ _ _ (bary_const c) H). Qed.
Lemma bary_pow d B f n : bary d B f -> bary (n * d) (B ^ n) (fun p => f p ^ n).
Proof.
  intros H. induction n as [|n IH]; cbn [pow Nat.mul]; [|apply bary_mult; assumption].
  eapply bary_weaken; [apply le_n | | apply (bary_const 1)]. rewrite Rabs_R1. lra.
Qed.
(** The rule for triangles on such a polynomial. *)
Definition bary_of (q : tip) : pt := Pt (Q2R (bary0 q)) (Q2R (bary1 q)) (Q2R (bary2 q)).
Lemma sum_swap {A B} (f : A -> B -> R) l r : sum (fun a => sum (f a) r) l = sum (fun b => sum (fun a => f a b) l) r.
Proof.
  induction l as [|a l IH]; cbn [sum]; [|rewrite IH, <- sum_plus; reflexivity]. induction r as [|b r IH]; cbn [sum]; [reflexivity|]. rewrite <- IH. ring.
Qed.
Lemma dirichlet_mean a b c : mean a b c = 2 * dirichlet a b c.
Proof. unfold mean, dirichlet. field. apply INR_fact_neq_0. Qed.
Lemma bary_integral l : over_triangle (fun u w => mev l (Pt (1 - u - w) u w)) (lin (fun m => let '(i, j, k) := m in dirichlet i j k) l).
Proof.
  unfold mev, lin. induction l as [|[c [[i j] k]] l IH]; cbn [sum]; [apply over_triangle_zero|]. apply over_triangle_plus; [|exact IH].
  apply over_triangle_scal. cbn [fst snd mono px py pz]. apply over_triangle_mono.
Qed.
Lemma rule_error h B v : bary 6 B h -> over_triangle (fun u w => h (Pt (1 - u - w) u w)) v ->
  Rabs (sum (fun q => Q2R (weight_of q) * h (bary_of q)) tri_points4 - v) <= / 2 * / 10 ^ 13 * B.
Proof.
  intros (l & H1 & H2 & H3) I.
  assert (V : v = lin (fun m => let '(i, j, k) := m in dirichlet i j k) l).
  { refine (over_triangle_unique _ _ _ _ _ I (bary_integral l)). intros u w. apply H1. cbn [px py pz]. ring. }
  subst v. clear I.
  assert (E : sum (fun q => Q2R (weight_of q) * h (bary_of q)) tri_points4 =
    sum (fun m : R * (nat * nat * nat) => fst m * (/ 2 * (let '(i, j, k) := snd m in sum (real_term i j k) tri_points4))) l).
  { rewrite (sum_ext _ (fun q => sum (fun m => Q2R (weight_of q) * (fst m * mono (snd m) (bary_of q))) l)).
    2:{ intros q _. rewrite H1 by (unfold bary_of; cbn [px py pz]; destruct q as [[x y] w]; cbn [bary0 bary1 bary2]; rewrite bary0_real; ring). unfold mev. rewrite sum_scal. reflexivity. }
    rewrite sum_swap. apply sum_ext. intros [c [[i j] k]] _. cbn [fst snd]. rewrite <- sum_scal, <- sum_scal. apply sum_ext. intros q _.
    unfold real_term, mono, bary_of. cbn [px py pz]. field. }
  rewrite E. unfold lin. clear E H1. revert H2 H3.
  assert (G : (forall m, In m l -> (mdeg (snd m) <= 6)%nat) -> Rabs (sum (fun m : R * (nat * nat * nat) => fst m * (/ 2 * (let '(i, j, k) := snd m in sum (real_term i j k) tri_points4))) l -
     sum (fun m : R * (nat * nat * nat) => fst m * (let '(i, j, k) := snd m in dirichlet i j k)) l) <= / 2 * / 10 ^ 13 * msize l).
  { induction l as [|[c [[i j] k]] l IH]; intros H2; [unfold msize; cbn [sum]; rewrite Rminus_0_r, Rabs_R0; lra|].
    assert (D := H2 _ (or_introl eq_refl)). specialize (IH (fun m I => H2 m (or_intror I))). unfold msize in *. cbn [sum fst snd mdeg] in *.
    assert (T := table_moments 3 tri_points4 eq_refl i j k D). rewrite dirichlet_mean in T.
    set (x := sum (real_term i j k) tri_points4) in *. set (y := dirichlet i j k) in *.
    match goal with |- Rabs (_ + ?s - (_ + ?s')) <= _ => replace (c * (/ 2 * x) + s - (c * y + s')) with (c * (/ 2 * (x - 2 * y)) + (s - s')) by field; set (ss := s - s') in * end.
    eapply Rle_trans; [apply Rabs_triang|]. rewrite !Rabs_mult, (Rabs_right (/ 2)) by lra.
    assert (P : 0 < 3 ^ (i + j + k)) by (apply pow_lt; lra). rewrite pow_inv in *.
    assert (T' : Rabs (x - 2 * y) <= / 10 ^ 13 * / 3 ^ (i + j + k)).
    { apply (Rmult_le_reg_r (3 ^ (i + j + k))); [exact P|]. rewrite Rmult_assoc, Rinv_l by lra. lra. }
    assert (C := Rabs_pos c). assert (Q : Rabs c * (/ 2 * Rabs (x - 2 * y)) <= Rabs c * (/ 2 * (/ 10 ^ 13 * / 3 ^ (i + j + k)))) by (apply Rmult_le_compat_l; [exact C|lra]).
    lra. }
  intros H2 H3. specialize (G H2). assert (N : 0 < / 10 ^ 13) by (apply Rinv_0_lt_compat, pow_lt; lra). nra.
Qed.

(** *** The bounds of the fields *)
Fixpoint horner (cs : list R) (x : R) : R := match cs with [] => 0 | c :: cs' => c + x * horner cs' x end.
Lemma bary_horner t : bary 1 1 t -> forall c cs, bary (length cs) (sum Rabs (c :: cs)) (fun p => horner (c :: cs) (t p)).
Proof.
  intros H c cs. revert c. induction cs as [|d cs IH]; intros c.
  - cbn [horner length sum]. apply (bary_ext 0 _ (fun _ => c)); [intros p _; ring|]. eapply bary_weaken; [apply le_n| |apply bary_const]. lra.
  - apply (bary_ext (Nat.max 0 (1 + length cs)) _ (fun p => c + t p * horner (d :: cs) (t p))); [intros p _; reflexivity|].
    eapply bary_weaken; [apply le_n| |apply bary_plus; [apply bary_const | apply bary_mult; [exact H | apply IH]]]. cbn [sum]. lra.
Qed.
Section OneDirection.
Variables (a b M : R) (x : pt -> R) (x1 x2 x3 : R).
Hypothesis Hx : forall p, x p = px p * x1 + py p * x2 + pz p * x3.
Hypothesis Ab : a < b.
Hypothesis H1 : a <= x1 <= b.
Hypothesis H2 : a <= x2 <= b.
Hypothesis H3 : a <= x3 <= b.
Hypothesis Ha : Rabs a <= M.
Hypothesis Hb : Rabs b <= M.
Lemma abs_between lo hi y : lo <= y <= hi -> Rabs lo <= M -> Rabs hi <= M -> Rabs y <= M.
Proof. intros Y L U. apply Rabs_le. assert (A := Rle_abs hi). assert (B := Rle_abs (- lo)). rewrite Rabs_Ropp in B. lra. Qed.
Lemma bary_x : bary 1 M x.
Proof. apply (bary_ext 1 M (fun p => px p * x1 + py p * x2 + pz p * x3)); [intros p _; symmetry; apply Hx|]. apply bary_affine; apply (abs_between a b); assumption. Qed.
Definition local_t (p : pt) : R := (2 * x p - a - b) / (b - a).
Lemma unit_t y : a <= y <= b -> Rabs ((2 * y - a - b) / (b - a)) <= 1.
Proof.
  intros Y. apply Rabs_le. split.
  - apply (Rmult_le_reg_r (b - a)); [lra|]. unfold Rdiv. rewrite Rmult_assoc, Rinv_l by lra. lra.
  - apply (Rmult_le_reg_r (b - a)); [lra|]. unfold Rdiv. rewrite Rmult_assoc, Rinv_l by lra. lra.
Qed.
Lemma bary_t : bary 1 1 local_t.
Proof.
  eapply bary_ext; [|apply (bary_affine _ _ _ 1 (unit_t x1 H1) (unit_t x2 H2) (unit_t x3 H3))]. intros p S. unfold local_t. rewrite Hx.
  replace (pz p) with (1 - px p - py p) by lra. field. lra.
Qed.
Ltac abs := repeat match goal with |- context [Rabs ?r] => first [rewrite (Rabs_right r) by lra | rewrite (Rabs_left1 r) by lra] end.
Ltac fit cs := eapply bary_weaken; [| |eapply (bary_ext _ _ (fun p => horner cs (local_t p))); [|apply (bary_horner local_t bary_t)]];
  [cbn [length]; lia | cbn [sum pow]; abs; lra | intros p _; unfold f_x, power; cbn [power_loop horner]; fold (local_t p); field].
Lemma bary_f n : (n <= 5)%nat -> bary n (2 ^ n) (fun p => f_x (x p) n a b).
Proof.
  intros L. destruct n as [|[|[|[|[|[|n]]]]]]; [..|lia].
  - fit [1].
  - fit [0; 1].
  - fit [-1/2; 0; 3/2].
  - fit [0; -3/2; 0; 5/2].
  - fit [3/8; 0; -30/8; 0; 35/8].
  - fit [0; 15/8; 0; -70/8; 0; 63/8].
Qed.
Ltac fit_int k cs n := 
  eapply bary_weaken; [| |eapply (bary_ext _ _ (fun p => k * x p + (b - a) * horner cs (local_t p)));
    [|apply bary_plus; [apply bary_scal, bary_x | apply bary_scal, (bary_horner local_t bary_t)]]];
  [cbn [length Nat.max]; lia | cbn [sum pow]; rewrite (Rabs_right (b - a)) by lra; abs; assert (La := Rle_abs (- a)); assert (Lb := Rle_abs b); rewrite Rabs_Ropp in La; lra
   | intros p _; unfold f_x_int, power, local_t; cbn [power_loop horner]; field; lra].
Lemma bary_f_int n : (n <= 5)%nat -> bary (S n) (M * 2 ^ n) (fun p => f_x_int (x p) n a b).
Proof.
  intros L. assert (0 <= M) by (assert (A := Rabs_pos a); lra). destruct n as [|[|[|[|[|[|n]]]]]]; [..|lia].
  - fit_int 1 [0] 0%nat.
  - fit_int 0 [0; 0; 1/4] 1%nat.
  - fit_int (-1/2) [0; 0; 0; 1/4] 2%nat.
  - fit_int 0 [0; 0; -3/8; 0; 5/16] 3%nat.
  - fit_int (3/8) [0; 0; 0; -5/8; 0; 7/16] 4%nat.
  - fit_int 0 [0; 0; 15/32; 0; -35/32; 0; 21/32] 5%nat.
Qed.
End OneDirection.

(** *** One triangle *)
Definition combo (t : tri pt) (p : pt) : pt := vadd (vadd (vscale (px p) (P1 t)) (vscale (py p) (P2 t))) (vscale (pz p) (P3 t)).
Lemma comp_norm a v : Rabs (at_ a v) <= norm v.
Proof.
  unfold norm. rewrite <- sqrt_Rsqr_abs. apply sqrt_le_1_alt. unfold Rsqr.
  assert (X := Rle_0_sqr (px v)). assert (Y := Rle_0_sqr (py v)). assert (Z := Rle_0_sqr (pz v)). unfold Rsqr in *. destruct a; cbn [at_]; lra.
Qed.
Definition in_box_tri (b : box) (t : tri pt) : Prop := in_closed b (P1 t) /\ in_closed b (P2 t) /\ in_closed b (P3 t).
Definition within_M (M : R) (b : box) : Prop := forall a, Rabs (at_ a (lower b)) <= M /\ Rabs (at_ a (upper b)) <= M.
Lemma field_bary b i j k M t : box_ok b -> (i + j + k <= 5)%nat -> within_M M b -> in_box_tri b t ->
  bary 6 (2 * tri_area t * M * 2 ^ (i + j + k)) (fun p => dot (area2 t) (third b (i, j, k) (combo t p))).
Proof.
  intros B L W (I1 & I2 & I3).
  assert (F : forall a n, (n <= 5)%nat -> bary n (2 ^ n) (fun p => f_x (at_ a (combo t p)) n (at_ a (lower b)) (at_ a (upper b)))).
  { intros a n Ln. apply (bary_f _ _ _ (at_ a (P1 t)) (at_ a (P2 t)) (at_ a (P3 t))); auto. intros p. destruct a; cbn [at_ combo vadd vscale px py pz]; ring. }
  assert (G : forall a n, (n <= 5)%nat -> bary (S n) (M * 2 ^ n) (fun p => f_x_int (at_ a (combo t p)) n (at_ a (lower b)) (at_ a (upper b)))).
  { intros a n Ln. destruct (W a) as [Wl Wu]. apply (bary_f_int _ _ M _ (at_ a (P1 t)) (at_ a (P2 t)) (at_ a (P3 t))); auto. intros p. destruct a; cbn [at_ combo vadd vscale px py pz]; ring. }
  assert (M0 : 0 <= M) by (destruct (W AX) as [A _]; assert (A' := Rabs_pos (at_ AX (lower b))); lra).
  assert (Cx := bary_scal (px (area2 t) * (1 / 3)) _ _ _ (bary_mult _ _ _ _ _ _ (bary_mult _ _ _ _ _ _ (G AX i ltac:(lia)) (F AY j ltac:(lia))) (F AZ k ltac:(lia)))).
  assert (Cy := bary_scal (py (area2 t) * (1 / 3)) _ _ _ (bary_mult _ _ _ _ _ _ (bary_mult _ _ _ _ _ _ (F AX i ltac:(lia)) (G AY j ltac:(lia))) (F AZ k ltac:(lia)))).
  assert (Cz := bary_scal (pz (area2 t) * (1 / 3)) _ _ _ (bary_mult _ _ _ _ _ _ (bary_mult _ _ _ _ _ _ (F AX i ltac:(lia)) (F AY j ltac:(lia))) (G AZ k ltac:(lia)))).
  assert (S := bary_plus _ _ _ _ _ _ (bary_plus _ _ _ _ _ _ Cx Cy) Cz).
  eapply bary_ext; [|eapply bary_weaken; [| |exact S]].
  - intros p _. unfold third, flux, dot, vscale. cbn [at_ px py pz]. ring.
  - lia.
  - unfold tri_area. fold (area2 t). rewrite !Rabs_mult, (Rabs_right (1 / 3)) by lra. rewrite !pow_add.
    assert (X := comp_norm AX (area2 t)). assert (Y := comp_norm AY (area2 t)). assert (Z := comp_norm AZ (area2 t)). cbn [at_] in X, Y, Z.
    assert (Pi := pow_lt 2 i ltac:(lra)). assert (Pj := pow_lt 2 j ltac:(lra)). assert (Pk := pow_lt 2 k ltac:(lra)).
    set (N := norm (area2 t)) in *. set (c := M * (2 ^ i * 2 ^ j * 2 ^ k)). assert (C0 : 0 <= c) by (unfold c; apply Rmult_le_pos; [exact M0|]; apply Rmult_le_pos; [apply Rmult_le_pos; lra|lra]).
    replace (2 * (1 / 2 * N) * M * (2 ^ i * 2 ^ j * 2 ^ k)) with (N * c) by (unfold c; field).
    match goal with |- ?e <= _ => replace e with ((Rabs (px (area2 t)) + Rabs (py (area2 t)) + Rabs (pz (area2 t))) / 3 * c) by (unfold c; field) end.
    apply Rmult_le_compat_r; [exact C0|lra].
Qed.
(** The triangle has an area that counts, or none. *)
Definition no_sliver (t : tri pt) : Prop := zerotol < norm (area2 t) \/ area2 t = Pt 0 0 0.
Lemma normal_times_area t : no_sliver t -> vscale (2 * tri_area t) (tri_normal t) = area2 t.
Proof.
  intros [H | H].
  - assert (E := tri_normal_exact t H). unfold exact_normal in E. cbn [fst snd] in E. transitivity (vscale (norm (area2 t)) (tri_normal t)); [|exact E]. f_equal. unfold tri_area. fold (area2 t). field.
  - unfold tri_area. fold (area2 t). rewrite H. unfold norm. cbn [px py pz]. rewrite !Rmult_0_l, !Rplus_0_r, sqrt_0. unfold vscale. f_equal; ring.
Qed.
Lemma triangle_term eb b r t : no_sliver t ->
  sum (fun q => dot (bp_normal q) (flux b r (bp_pos q)) * (1 / 3 * bp_weight q)) (local_ips Global eb t)
  = sum (fun q => Q2R (weight_of q) * dot (area2 t) (third b r (combo t (bary_of q)))) tri_points4.
Proof.
  intros S. assert (E := normal_times_area t S). unfold local_ips. generalize tri_points4. intros l. induction l as [|[[x y] w] l IH]; cbn [map sum]; [reflexivity|].
  rewrite IH. f_equal. rewrite <- E. cbn [global_ip b_point b_weight b_normal bp_normal bp_pos bp_weight weight_of].
  match goal with |- dot _ (flux b r ?p) * _ = _ => replace p with (combo t (bary_of (x, y, w))) end.
  - unfold third, dot, vscale. cbn [px py pz]. field.
  - unfold combo, bary_of, vadd, vscale, TriIpModel.shape. cbn [bary0 bary1 bary2 px py pz fst snd]. rewrite bary0_real. reflexivity.
Qed.
Lemma triangle_error eb b i j k M t v : box_ok b -> (i + j + k <= 5)%nat -> within_M M b -> in_box_tri b t -> no_sliver t ->
  over_triangle (fun u w => dot (area2 t) (third b (i, j, k) (position t u w))) v ->
  Rabs (sum (fun q => dot (bp_normal q) (flux b (i, j, k) (bp_pos q)) * (1 / 3 * bp_weight q)) (local_ips Global eb t) - v)
    <= 2 ^ (i + j + k) / 10 ^ 13 * M * tri_area t.
Proof.
  intros B L W I S V. rewrite (triangle_term eb b _ t S).
  assert (R := rule_error _ _ v (field_bary b i j k M t B L W I) V).
  eapply Rle_trans; [exact R|]. apply Req_le. field.
Qed.
Lemma moments_error eb b i j k M (l : list (tri pt * pt)) bps o : box_ok b -> (i + j + k <= 5)%nat -> within_M M b ->
  Forall (fun q => in_box_tri b (fst q) /\ no_sliver (fst q)) l -> closed (map fst l) -> domain_ips Global l eb = Some bps ->
  exists v, enclosed o (map fst l) (phi b i j k) v /\
    Rabs (constant_term b bps (i, j, k) - v) <= 2 ^ (i + j + k) / 10 ^ 13 * M * sum (fun q => tri_area (fst q)) l.
Proof.
  intros B L W Hl C E. rewrite domain_ips_flat in E. apply some_inj in E. subst bps.
  destruct (third_poly b (i, j, k)) as (X & Y & Z).
  destruct (divergence_theorem o (map fst l) (third b (i, j, k)) (phi b i j k) X Y Z (third_divergence b i j k B ltac:(lia)) C) as (v & Hv & (vs & Hs & Ev)).
  exists v. split; [exact Hv|]. clear Hv C X Y Z. unfold constant_term. rewrite fold_sum, Rplus_0_l, sum_flat'. subst v.
  revert vs Hs. induction l as [|q l IH]; intros vs Hs; inversion Hs; subst; cbn [map sum].
  - rewrite Rminus_0_r, Rabs_R0. lra.
  - apply Forall_cons_iff in Hl as [[I S] Hl].
    match goal with H : over_triangle _ ?y, H' : Forall2 _ (map fst l) ?ys |- _ => specialize (IH Hl ys H'); assert (T := triangle_error eb b i j k M (fst q) y B L W I S H) end.
    match goal with |- Rabs (?x + ?xs - (?y + ?ys)) <= _ => replace (x + xs - (y + ys)) with ((x - y) + (xs - ys)) by ring end.
    eapply Rle_trans; [apply Rabs_triang|]. lra.
Qed.
