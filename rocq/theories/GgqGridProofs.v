(** The points of the generalized Gauss rules of a whole grid integrate products of splines. *)
From Coq Require Import Reals QArith Qabs Qreals List Arith NArith ZArith Bool Lra Lia Psatz Permutation.
From Verif Require Import Geo GridModel GridSpec GridProofs GridGeoModel GridGeoProofs BoxModel BoxSpec BoxProofs BoxProps GgqModel GgqProofs GgqProps SplineSpec Ggq1dModel Ggq1dSpec Ggq1dProofs Ggq1dAll Ggq1dProps GgqExactProps
  GgqLast GgqGridSpec GgqGrid1d MappingModel MappingProps TrimmedQuadModel TrimmedQuadAssemble TrimmedQuadLemmas MeshModel MeshGeoModel MeshGeoProofs MeshSumProofs GeoQueryModel TrimSearchModel GridStoreModel DivSpec MeshBoxProofs TrimSearchGeo VolumeModel VolumeSpec VolumeProofs.
Import ListNotations.
Local Open Scope R_scope.

Definition term (g : axis -> R -> R) (q : ipoint) : R := ip_weight q * product g (ip_pos q).
Lemma quadrature_sum r f : SplineSpec.quadrature r f = sum (fun q => snd q * f (fst q)) r.
Proof. induction r as [|q r IH]; [reflexivity|]. unfold SplineSpec.quadrature in *. cbn [fold_right sum]. rewrite IH. reflexivity. Qed.
Lemma sum_flat {A B} (f : B -> R) (h : A -> list B) l : sum f (flat_map h l) = sum (fun a => sum f (h a)) l.
Proof. induction l as [|a l IH]; [reflexivity|]. cbn [flat_map sum]. rewrite sum_app, IH. reflexivity. Qed.
Lemma sum_map {A B} (f : B -> R) (h : A -> B) l : sum f (map h l) = sum (fun a => f (h a)) l.
Proof. induction l as [|a l IH]; [reflexivity|]. cbn [map sum]. rewrite IH. reflexivity. Qed.
Lemma tensor_product g u v w : sum (term g) (tensor u v w) = SplineSpec.quadrature u (g AX) * SplineSpec.quadrature v (g AY) * SplineSpec.quadrature w (g AZ).
Proof.
  rewrite !quadrature_sum. unfold tensor. rewrite sum_flat.
  rewrite (sum_ext _ (fun a => (sum (fun q => snd q * g AY (fst q)) v * sum (fun q => snd q * g AZ (fst q)) w) * (snd a * g AX (fst a)))).
  { rewrite sum_scale. ring. }
  intros a _. rewrite sum_flat. rewrite (sum_ext _ (fun b => (snd a * g AX (fst a) * sum (fun q => snd q * g AZ (fst q)) w) * (snd b * g AY (fst b)))).
  { rewrite sum_scale. ring. }
  intros b _. rewrite sum_map. rewrite (sum_ext _ (fun c => (snd a * g AX (fst a) * (snd b * g AY (fst b))) * (snd c * g AZ (fst c)))); [rewrite sum_scale; ring|].
  intros c _. unfold term, product. cbn [ip_weight ip_pos px py pz]. ring.
Qed.
Lemma product_error q1 q2 q3 i1 i2 i3 a1 a2 a3 t1 t2 t3 : 0 <= t1 -> 0 <= t2 -> 0 <= t3 ->
  Rabs i1 <= a1 -> Rabs i2 <= a2 -> Rabs i3 <= a3 -> Rabs (q1 - i1) <= a1 * t1 -> Rabs (q2 - i2) <= a2 * t2 -> Rabs (q3 - i3) <= a3 * t3 ->
  Rabs (q1 * q2 * q3 - i1 * i2 * i3) <= a1 * a2 * a3 * ((1 + t1) * (1 + t2) * (1 + t3) - 1).
Proof.
  intros T1 T2 T3 I1 I2 I3 Q1 Q2 Q3. set (e1 := q1 - i1) in *. set (e2 := q2 - i2) in *. set (e3 := q3 - i3) in *.
  replace (q1 * q2 * q3 - i1 * i2 * i3) with (e1 * i2 * i3 + i1 * e2 * i3 + i1 * i2 * e3 + e1 * e2 * i3 + e1 * i2 * e3 + i1 * e2 * e3 + e1 * e2 * e3) by (unfold e1, e2, e3; ring).
  clearbody e1 e2 e3. assert (A : forall x y z a b c, Rabs x <= a -> Rabs y <= b -> Rabs z <= c -> Rabs (x * y * z) <= a * b * c).
  { intros x y z a b c X Y Z. rewrite !Rabs_mult. apply Rmult_le_compat; auto using Rabs_pos; [apply Rmult_le_pos; apply Rabs_pos|]. apply Rmult_le_compat; auto using Rabs_pos. }
  replace (a1 * a2 * a3 * ((1 + t1) * (1 + t2) * (1 + t3) - 1)) with (a1 * t1 * a2 * a3 + a1 * (a2 * t2) * a3 + a1 * a2 * (a3 * t3) + a1 * t1 * (a2 * t2) * a3 + a1 * t1 * a2 * (a3 * t3) + a1 * (a2 * t2) * (a3 * t3) + a1 * t1 * (a2 * t2) * (a3 * t3)) by ring.
  repeat (eapply Rle_trans; [apply Rabs_triang|]; apply Rplus_le_compat; [|apply A; assumption]). apply A; assumption.
Qed.
Lemma axis_error_pos w : 0 < w -> 0 <= axis_error w.
Proof.
  intros W. unfold axis_error. assert (0 < / 10 ^ 13) by (apply Rinv_0_lt_compat, pow_lt; lra). assert (0 < / 10 ^ 9 / w) by (apply Rdiv_lt_0_compat; [apply Rinv_0_lt_compat, pow_lt|]; lra). lra.
Qed.

Section Grid.
Variables (gi : indexer) (se : settings) (m : ggq) (o : axis -> nat).
Hypothesis Hg : grid_ok (gi_grid gi).
Hypothesis Hb : box_ok (gi_uvw gi).
Hypothesis Hs : gi_bspline gi = true.
Hypothesis Eo : se_order se = (o AX, o AY, o AZ).
Hypothesis Ho : forall a, (2 <= o a <= 4)%nat.
Hypothesis Hd : forall a, delta (gi_grid gi) (gi_uvw gi) a > 100 * eps3.
Let dl a := delta (gi_grid gi) (gi_uvw gi) a.
Let lo a := at_ a (lower (gi_uvw gi)).
Let up a := at_ a (upper (gi_uvw gi)).
Let nn a := n_at a (gi_grid gi).
Lemma order_o a : order_at se a = o a.
Proof. unfold order_at. rewrite Eo. destruct a; reflexivity. Qed.
Lemma nn_pos a : (0 < nn a)%nat.
Proof. unfold nn. destruct Hg as (A & B & C). destruct a; cbn; assumption. Qed.
Lemma lo_up a : lo a < up a.
Proof. apply Hb. Qed.
Lemma dl_eq a : dl a = (up a - lo a) / INR (nn a).
Proof. unfold dl, delta. rewrite Rabs_right by (pose proof (lo_up a); unfold up, lo in *; lra). reflexivity. Qed.
(** The rules fit into every box. *)
Lemma rules_fit l s : is_cuboid (gi_grid gi) l s -> rule_fits (bounds_of (box_uvw gi) l) (box_rules se m s).
Proof.
  intros (Hn & HN & S1 & S2 & S3 & c & L1 & L2 & L3 & Hl) a q Hq.
  destruct (bb_bounds gi Hg Hb Hs l s c Hn HN (conj S1 (conj S2 S3)) (conj L1 (conj L2 L3)) Hl a) as (E1 & E2). rewrite E1, E2.
  unfold box_rules, box_rule in Hq. rewrite order_o in Hq. destruct (get_ggq (o a) (c_at a s) m) as [r|] eqn:El; cbn [option_map] in Hq; [|destruct Hq].
  unfold real_rule in Hq. apply in_map_iff in Hq as (q' & <- & Hq). cbn [fst].
  assert (Hc : (1 <= c_at a s)%nat) by (destruct a; cbn; lia). destruct (all_points_low (o a) (c_at a s) m r (Ho a) Hc El q' Hq) as (A & B).
  apply Qlt_Rlt in A. apply Qle_Rle in B. replace (Q2R 0) with 0 in A by (unfold Q2R; cbn; lra). split; [lra|].
  assert (C0 : 0 < INR (c_at a s)) by (apply lt_0_INR; lia).
  assert (Eq : Q2R (1 - (1 # 100) * / ofnat (c_at a s)) = 1 - / 100 * / INR (c_at a s)).
  { assert (Q2R (ofnat (c_at a s)) = INR (c_at a s)) as On by (unfold ofnat, Q2R; cbn [Qnum Qden inject_Z]; rewrite <- INR_IZR_INZ; field).
    rewrite Q2R_minus, Q2R_mult, Q2R_inv, On; [|intros E; apply Qeq_eqR in E; rewrite On in E; unfold Q2R in E; cbn in E; lra].
    unfold Q2R; cbn [Qnum Qden]. field. lra. }
  rewrite Eq in B. rewrite plus_INR. specialize (Hd a). pose proof eps3_small as P3. set (x := Q2R (fst q')) in *. clearbody x.
  set (d := delta (gi_grid gi) (gi_uvw gi) a) in *. set (C := INR (c_at a s)) in *. clearbody d C.
  assert (K : d * C * x <= d * C * (1 - / 100 * / C)) by (apply Rmult_le_compat_l; [apply Rmult_le_pos; lra|exact B]).
  replace (d * C * (1 - / 100 * / C)) with (d * C - d / 100) in K by (field; lra). nra.
Qed.

Variables (P : axis -> nat -> list R) (g G : axis -> R -> R) (B : axis -> R).
Hypothesis Sp : forall a, grid_spline (fst (target (o a) m)) (snd (target (o a) m)) (nn a) (lo a) (up a) (P a) (g a).
Hypothesis Sz : forall a k, (k < nn a)%nat -> size (P a k) <= B a.
Hypothesis An : forall a, antiderivative_on (lo a) (up a) (G a) (g a).
Definition grid_error : R := B AX * B AY * B AZ * ((1 + axis_error (dl AX)) * (1 + axis_error (dl AY)) * (1 + axis_error (dl AZ)) - 1).
Lemma target_small a : (fst (target (o a) m) <= 8)%nat.
Proof. specialize (Ho a). unfold target. destruct m; cbn [fst]; lia. Qed.
Lemma box_splines l s L : is_cuboid (gi_grid gi) l s -> box_assembly se gi m (l, s) = Some L ->
  map fst L = l /\ Rabs (sum (fun q => sum (term g) (snd q)) L - box_integral G (bounds_of (box_uvw gi) l)) <= grid_error * axis_volume (bounds_of (box_uvw gi) l).
Proof.
  intros Hc H. unfold box_assembly in H. cbn [fst snd] in H. assert (Hr := rules_fit l s Hc).
  destruct (box_rule se m s AX) as [u|] eqn:Eu; [|discriminate]. destruct (box_rule se m s AY) as [v|] eqn:Ev; [|discriminate]. destruct (box_rule se m s AZ) as [w|] eqn:Ew; [|discriminate].
  set (r := fun a : axis => match a with AX => u | AY => v | AZ => w end) in H. assert (ER : forall a, box_rules se m s a = r a) by (intros []; unfold box_rules; rewrite ?Eu, ?Ev, ?Ew; reflexivity).
  assert (Hl : forall a, exists q, get_ggq (o a) (c_at a s) m = Some q /\ r a = real_rule q).
  { intros a. rewrite <- order_o. assert (K : box_rule se m s a = Some (r a)) by (destruct a; assumption). unfold box_rule in K. destruct (get_ggq _ _ _) as [q|]; [|discriminate]. exists q. injection K as <-. auto. }
  injection H as <-. split; [unfold box_points; rewrite map_map; apply map_id|].
  assert (Hr' : rule_fits (bounds_of (box_uvw gi) l) r) by (intros a q I; apply Hr; rewrite ER; exact I).
  set (bb := bounds_of (box_uvw gi) l) in *. destruct (distribution gi l s r Hg Hb Hs Hc Hr') as (f & Pm & F). fold bb in F.
  assert (EL : sum (fun q => sum (term g) (snd q)) (box_points (box_uvw gi) l r) = sum (term g) (concat (map snd (box_points (box_uvw gi) l r)))).
  { generalize (box_points (box_uvw gi) l r). intros L. induction L as [|q L IH]; [reflexivity|]. cbn [sum map concat]. rewrite sum_app, IH. reflexivity. }
  rewrite EL, (sum_perm _ _ _ Pm), tensor_product. destruct Hc as (Hn & HN & S1 & S2 & S3 & c & L1 & L2 & L3 & Hin).
  assert (X : forall a, Rabs (G a (at_ a (upper bb)) - G a (at_ a (lower bb))) <= (at_ a (upper bb) - at_ a (lower bb)) * B a /\
    Rabs (SplineSpec.quadrature (map (f a) (r a)) (g a) - (G a (at_ a (upper bb)) - G a (at_ a (lower bb)))) <= (at_ a (upper bb) - at_ a (lower bb)) * B a * axis_error (dl a)).
  { intros a. destruct (bb_bounds gi Hg Hb Hs l s c Hn HN (conj S1 (conj S2 S3)) (conj L1 (conj L2 L3)) Hin a) as (E1 & E2). fold bb in E1, E2. fold (lo a) (dl a) in E1, E2.
    destruct (Hl a) as (q & Eq & Er). assert (Ca : (0 < c_at a s)%nat) by (destruct a; cbn; lia). assert (Cn : (c_at a c + c_at a s <= nn a)%nat) by (unfold nn; destruct a; cbn; lia).
    rewrite (dl_eq a) in E1, E2. assert (Fa := F a). rewrite E1, E2 in Fa |- *. rewrite (dl_eq a). split.
    - apply (axis_integral _ _ _ _ _ _ _ _ _ (nn_pos a) (lo_up a) (Sp a) (Sz a) (target_small a) (An a) _ _ Ca Cn).
    - rewrite Er. eapply (axis_quadrature _ _ _ _ _ _ _ _ _ (nn_pos a) (lo_up a) (Sp a) (Sz a) (target_small a) (An a) _ _ Ca Cn (o a) m q (f a) (Ho a)).
      + destruct (target (o a) m); reflexivity.
      + exact Eq.
      + intros p Hp. rewrite <- Er in Hp. destruct (Fa p Hp) as (F1 & F2 & F3). split; [exact F1|]. split; [exact F2|]. apply F3. specialize (Hd a). pose proof eps3_small. lra. }
  destruct (X AX) as (X1 & X2), (X AY) as (Y1 & Y2), (X AZ) as (Z1 & Z2). cbn [at_] in *.
  assert (W : forall a, 0 < dl a) by (intros a; specialize (Hd a); fold (dl a) in Hd; pose proof eps3_small; lra).
  eapply Rle_trans; [apply (product_error _ _ _ _ _ _ _ _ _ _ _ _ (axis_error_pos _ (W AX)) (axis_error_pos _ (W AY)) (axis_error_pos _ (W AZ)) X1 Y1 Z1 X2 Y2 Z2)|].
  apply Req_le. unfold grid_error, axis_volume. ring.
Qed.
(** The integral over a box is the sum of the integrals over its cells. *)
Lemma telescope (h : R -> R) x0 d k n : sum (fun j => h (x0 + d * (1 + INR j)) - h (x0 + d * INR j)) (seq k n) = h (x0 + d * INR (k + n)) - h (x0 + d * INR k).
Proof.
  revert k. induction n as [|n IH]; intros k; cbn [seq sum]; [rewrite Nat.add_0_r; ring|]. rewrite IH. replace (S k + n)%nat with (k + S n)%nat by lia. rewrite (S_INR k), (Rplus_comm (INR k) 1). ring.
Qed.
Lemma box_cells l s : is_cuboid (gi_grid gi) l s -> box_integral G (bounds_of (box_uvw gi) l) = sum (fun i => box_integral G (box_uvw gi i)) l.
Proof.
  intros (Hn & HN & S1 & S2 & S3 & c & L1 & L2 & L3 & Hl).
  assert (Bb := bb_bounds gi Hg Hb Hs l s c Hn HN (conj S1 (conj S2 S3)) (conj L1 (conj L2 L3)) Hl).
  rewrite (sum_perm _ _ _ (l_perm gi Hg l s c Hn HN (conj S1 (conj S2 S3)) (conj L1 (conj L2 L3)) Hl)), sum_map.
  set (D a k := G a (lo a + dl a * (1 + INR k)) - G a (lo a + dl a * INR k)).
  rewrite (sum_ext _ (fun k => D AX (cx k) * D AY (cy k) * D AZ (cz k))).
  2:{ intros k Hk. assert (Ig : in_grid (gi_grid gi) k) by (apply in_cells_in in Hk; unfold within in Hk; unfold in_grid; lia).
      assert (A1 := fun a => cell_low gi Hs k a Ig). assert (A2 := fun a => cell_up gi Hs k a Ig).
      unfold box_integral, D. assert (X1 := A1 AX). assert (Y1 := A1 AY). assert (Z1 := A1 AZ). assert (X2 := A2 AX). assert (Y2 := A2 AY). assert (Z2 := A2 AZ). cbn [at_ c_at] in *. rewrite X1, Y1, Z1, X2, Y2, Z2. reflexivity. }
  unfold cells_in. rewrite sum_flat.
  assert (T : forall a, sum (D a) (seq (c_at a c) (c_at a s)) = G a (at_ a (upper (bounds_of (box_uvw gi) l))) - G a (at_ a (lower (bounds_of (box_uvw gi) l)))).
  { intros a. unfold D. rewrite telescope. destruct (Bb a) as (E1 & E2). rewrite E1, E2. reflexivity. }
  assert (Tx := T AX). assert (Ty := T AY). assert (Tz := T AZ). cbn [c_at at_] in *. unfold box_integral. rewrite <- Tx, <- Ty, <- Tz.
  symmetry. rewrite (sum_ext _ (fun x => (sum (D AY) (seq (cy c) (cy s)) * sum (D AZ) (seq (cz c) (cz s))) * D AX x)); [rewrite sum_scale; ring|].
  intros x _. rewrite sum_flat. rewrite (sum_ext _ (fun y => (D AX x * sum (D AZ) (seq (cz c) (cz s))) * D AY y)); [rewrite sum_scale; ring|].
  intros y _. rewrite sum_map. cbn [cx cy cz]. rewrite sum_scale. ring.
Qed.
Lemma boxes_splines boxes : forall Ls, (forall l s, In (l, s) boxes -> is_cuboid (gi_grid gi) l s) -> map (box_assembly se gi m) boxes = map Some Ls ->
  map fst (concat Ls) = concat (map fst boxes) /\
  Rabs (sum (fun q => sum (term g) (snd q)) (concat Ls) - sum (fun i => box_integral G (box_uvw gi i)) (concat (map fst boxes))) <= grid_error * sum (fun i => box_volume (box_uvw gi i)) (concat (map fst boxes)).
Proof.
  induction boxes as [|[l s] boxes IH]; intros [|L Ls] H E; cbn [map] in E; try discriminate.
  - cbn [concat map sum]. split; [reflexivity|]. rewrite Rminus_0_r, Rabs_R0. lra.
  - injection E as E1 E2. destruct (IH Ls (fun l s I => H l s (or_intror I)) E2) as [A C]. assert (Hc := H l s (or_introl eq_refl)).
    destruct (box_splines l s L Hc E1) as [D F]. rewrite (box_cells l s Hc), (cuboid_volume gi l s Hg Hb Hs Hc) in F. cbn [concat map fst]. rewrite map_app, D, A. split; [reflexivity|]. rewrite !sum_app.
    match goal with |- Rabs (?a + ?b - (?c + ?d)) <= _ => replace (a + b - (c + d)) with ((a - c) + (b - d)) by ring end.
    eapply Rle_trans; [apply Rabs_triang|]. lra.
Qed.
Lemma sum_terms F L : NoDup F -> (forall q, In q L -> In (fst q) F) -> sum (fun i => sum (term g) (points_for L i)) F = sum (fun q => sum (term g) (snd q)) L.
Proof.
  intros N. induction L as [|q L IH]; intros H; [induction F as [|i F IH]; [reflexivity|]; cbn [sum]; inversion N; subst; rewrite IH; [cbn; ring|assumption|intros q []]|].
  cbn [sum]. rewrite <- (IH (fun q I => H q (or_intror I))). specialize (H q (or_introl eq_refl)).
  assert (E : forall i, sum (term g) (points_for (q :: L) i) = (if (fst q =? i)%nat then sum (term g) (snd q) else 0) + sum (term g) (points_for L i)).
  { intros i. unfold points_for. cbn [flat_map]. rewrite sum_app. destruct (fst q =? i)%nat; reflexivity. }
  erewrite sum_ext; [|intros i _; apply E]. rewrite (MeshBoxProofs.sum_plus (fun i => if (fst q =? i)%nat then sum (term g) (snd q) else 0)). f_equal. clear IH E. induction F as [|i F IH]; [destruct H|]. apply NoDup_cons_iff in N. destruct N as [Ni N]. cbn [sum].
  destruct (Nat.eqb_spec (fst q) i) as [E | E].
  - rewrite (sum_ext (fun i0 => if (fst q =? i0)%nat then sum (term g) (snd q) else 0) (fun _ => 0)); [rewrite sum_const; ring|]. intros j I. destruct (Nat.eqb_spec (fst q) j) as [E' | E']; [congruence|reflexivity].
  - rewrite IH; [ring|exact N|]. destruct H as [H | H]; [congruence|exact H].
Qed.
Variable cls : nat -> istate.
Let n := num_elements (gi_grid gi).
Hypothesis Hw : no_wrap (gi_grid gi) (full_cell cls n).
Hypothesis Em : se_method se = UseGgq m.
Lemma guard_holds : ggq_guard se gi cls.
Proof.
  unfold ggq_guard. rewrite Em. split; [exact Hs|]. split; [intros a; rewrite order_o; apply Ho|]. split; [exact Hw|].
  intros boxes l s E I. apply rules_fit. destruct (boxes_cuboids _ _ Hg Hw) as (boxes' & E' & Hc). fold n in E. rewrite E in E'. injection E' as <-. apply Hc, I.
Qed.
Lemma grid_splines oc junk src chunks order inf s : (N.of_nat (length (active_indices cls n)) < 2 ^ 31)%N -> Permutation order (iterations gi cls) ->
  compute_volume oc se gi cls junk src chunks order = Ok (inf, s) ->
  Rabs (sum (fun e => sum (term g) (co_points (e_data e))) (st_untrimmed s) - sum (fun i => box_integral G (box_uvw gi i)) (cells_of Inside cls n)) <=
    grid_error * sum (fun i => box_volume (box_uvw gi i)) (cells_of Inside cls n).
Proof.
  intros A Pm H. destruct (computed _ _ _ _ _ _ _ _ _ _ A Pm H) as (vol & qual & tris & q & pts & _ & _ & _ & _ & _ & Fp & U & _). fold n in U.
  unfold full_points in Fp. rewrite Em in Fp. destruct Fp as (boxes & L & E1 & E2 & ->). apply TrimSearchGeo.all_of_some in E2. fold n in E1.
  destruct (boxes_cuboids _ _ Hg Hw) as (boxes' & E1' & Hc). rewrite E1 in E1'. injection E1' as <-.
  destruct (boxes_partition (gi_grid gi) (full_cell cls n) Hg) as (boxes' & E1' & Pq). rewrite E1 in E1'. injection E1' as <-. fold n in Pq. unfold n in Pq. rewrite full_cells in Pq. fold n in Pq.
  destruct (boxes_splines boxes L Hc E2) as [C D]. rewrite !(sum_perm _ _ _ Pq) in D.
  rewrite <- (sum_terms (cells_of Inside cls n)) in D; [| apply cells_nodup | intros p I; apply (Permutation_in _ Pq); rewrite <- C; apply in_map; exact I].
  rewrite (sum_perm _ _ _ U), sum_map. exact D.
Qed.
End Grid.
