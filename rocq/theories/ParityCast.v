(** The casts and the votes of the inside test tell the points that the closed surface is around from the others. *)
From Coq Require Import Reals List Arith Bool ZArith Permutation Lia Lra Psatz.
From Verif Require Import Geo MappingModel TrimmedQuadModel MeshModel MeshGeoModel MeshBoxProofs StlModel SearchModel SearchProofs GeoQueryModel SatMain GeoQueryProofs RayProofs CastProofs GeoQueryProps ParitySpec ParityGeo ParityDir ParityMain ParityPath.
Import ListNotations.
Local Open Scope R_scope.

Lemma closed_loop_clean r l : forall n b, closed_loop r l n = Cast b true ->
  (exists i q, In (i, q) l /\ large q /\ touches r q) \/ forall i q, In (i, q) l -> large q -> steep r q /\ ~ touches r q /\ ~ grazes r q.
Proof.
  induction l as [|[i q] l IH]; intros n b H; cbn [closed_loop] in H; [right; intros ? ? []|].
  assert (Go : forall n', closed_loop r l n' = Cast b true -> (large q -> steep r q /\ ~ touches r q /\ ~ grazes r q) ->
    (exists i0 q0, In (i0, q0) ((i, q) :: l) /\ large q0 /\ touches r q0) \/ forall i0 q0, In (i0, q0) ((i, q) :: l) -> large q0 -> steep r q0 /\ ~ touches r q0 /\ ~ grazes r q0).
  { intros n' E K. destruct (IH n' b E) as [(j & p & Hin & T)|F].
    - left. exists j, p. split; [right; exact Hin|exact T].
    - right. intros j p [Ej|Hin]; [injection Ej as <- <-; exact K|apply (F j p Hin)]. }
  pose proof (kind_ok r q) as K. destruct (rltb (100 * zerotol) (tri_area q)) eqn:A.
  - assert (L : large q) by (apply rltb_true, A). destruct (ray_triangle r q) as [| |t u v back] eqn:E; cbn [kind] in K.
    + apply (Go n H). intros _. tauto.
    + discriminate.
    + destruct K as (_ & K). destruct (rltb t zerotol) eqn:Et.
      * left. exists i, q. split; [left; reflexivity|]. split; [exact L|apply K].
      * destruct (on_edge u v) eqn:Oe; [discriminate|]. apply (Go (S n) H). intros _. destruct K as (K1 & K2 & K3). split; [|auto].
        destruct (proj2 (K3 t) eq_refl) as (S & _). exact S.
  - apply (Go n H). intros L. apply rltb_false in A. unfold large in L. lra.
Qed.

Lemma walk_along p d t : walk p d t = along (Ray p d) t.
Proof. reflexivity. Qed.
Lemma norm_scaled t d : norm d = 1 -> norm (vscale t d) = Rabs t.
Proof.
  intros H. unfold norm in *. cbn [vscale px py pz]. replace (t * px d * (t * px d) + t * py d * (t * py d) + t * pz d * (t * pz d)) with ((t * t) * (px d * px d + py d * py d + pz d * pz d)) by ring.
  rewrite sqrt_mult by nra. rewrite H, Rmult_1_r. apply sqrt_Rsqr_abs.
Qed.
Lemma clear_touch tris p d q : clear_of tris p -> norm d = 1 -> In q tris -> ~ touches (Ray p d) q.
Proof.
  intros C N Hq (t & u & v & (_ & E & (T & U & V & W) & _) & Tt). specialize (C q u v Hq U V W). rewrite <- E in C.
  assert (X : vsub (along (Ray p d) t) p = vscale t d) by (unfold along, vsub, vadd, vscale; cbn; f_equal; ring). rewrite X, (norm_scaled t d N) in C.
  assert (Rabs t <= zerotol) by (apply Rabs_le; lra). lra.
Qed.
Lemma clear_off tris p : clear_of tris p -> off_surface tris p.
Proof.
  intros C q Hq (a & b & c & A & B & Cc & S & E). pose proof zerotol_pos as Z. specialize (C q b c Hq ltac:(lra) ltac:(lra) ltac:(lra)).
  assert (X : vsub (plane_point q b c) p = Pt 0 0 0).
  { assert (E1 := E AX). assert (E2 := E AY). assert (E3 := E AZ). cbn [at_] in *. replace a with (1 - b - c) in * by lra. unfold plane_point, vsub, vadd, vscale. cbn. f_equal; lra. }
  rewrite X in C. unfold norm in C. cbn in C. replace (0 * 0 + 0 * 0 + 0 * 0) with 0 in C by ring. rewrite sqrt_0 in C. lra.
Qed.
Lemma triangle_meets r q t u v : 0 <= t -> 0 <= u -> 0 <= v -> u + v <= 1 -> along r t = plane_point q u v -> meets r (tri_box RA (corners q)).
Proof.
  intros T U V W E. exists t. split; [exact T|]. apply in_triangle_box. exists (1 - u - v), u, v. repeat (split; [lra|]). intros i. rewrite E. destruct i; cbn; ring.
Qed.
(** A successful cast from a point off the surface: the ray meets no edge, and the answer is the parity of the triangles that it
    passes through. *)
Lemma cast_counts junk tris g p d b : (Z.of_nat (length tris) <= 2 ^ 30)%Z -> tris <> [] -> make_query junk tris true = Some g -> (forall q, In q tris -> large q) ->
  clear_of tris p -> norm d = 1 -> cast_ray g (Ray p d) = Cast b true -> avoids tris p d /\ (b = true <-> odd_crossings tris p d).
Proof.
  intros Hl Hn Eg L C N H. set (r := Ray p d) in *. pose proof zerotol_pos as Zp.
  assert (NT : forall q, In q tris -> ~ touches r q) by (intros q Hq; apply (clear_touch tris); assumption).
  assert (K := closed_cast_ok junk tris g r Hl Hn Eg). rewrite H in K. destruct K as [(_ & q & Hq & _ & T)|(ids & ND & I & Eb)]; [exfalso; exact (NT q Hq T)|].
  destruct (candidates_ok junk tris true g (ray_box r) (meets r) Hl Hn Eg) as (c & E & Hd & H1 & H2).
  { intros x y K (t & Ht & Hp). exists t. auto. }
  { apply ray_box_complete. }
  destruct (ray_candidates junk tris true g r Hl Hn Eg) as (Ec & _). unfold cast_ray in H. rewrite E, Ec in H.
  assert (Clean : forall i q, In (i, q) c -> steep r q /\ ~ grazes r q).
  { destruct (closed_loop_clean r c 0 b H) as [(i & q & Hin & _ & T)|F].
    - exfalso. apply (NT q); [eapply nth_error_In, H1, Hin|exact T].
    - intros i q Hin. destruct (F i q Hin) as (S & _ & G); [apply L; eapply nth_error_In, H1, Hin|]. auto. }
  assert (Hit : forall i q t u v, nth_error tris i = Some q -> 0 <= t -> 0 <= u -> 0 <= v -> u + v <= 1 -> walk p d t = plane_point q u v ->
    steep r q /\ zerotol <= t /\ zerotol <= u /\ zerotol <= v /\ u + v <= 1 - zerotol).
  { intros i q t u v Hq T U V W X. rewrite walk_along in X. fold r in X. assert (Hin : In (i, q) c) by (apply H2; [exact Hq|]; apply (triangle_meets r q t u v); assumption).
    destruct (Clean i q Hin) as (S & G). assert (R : reaches r q t u v) by (unfold reaches, accurate; repeat split; try assumption; lra).
    assert (Tz : zerotol <= t). { destruct (Rle_dec zerotol t) as [Q|Q]; [exact Q|]. exfalso. apply (NT q (nth_error_In _ _ Hq)). exists t, u, v. split; [exact R|lra]. }
    split; [exact S|]. split; [exact Tz|]. assert (Q : ~ (u < zerotol \/ v < zerotol \/ 1 - zerotol < u + v)) by (intros Q; apply G; exists t, u, v; auto). lra. }
  split.
  - split.
    + intros Z. rewrite Z in N. unfold norm in N. cbn in N. replace (0 * 0 + 0 * 0 + 0 * 0) with 0 in N by ring. rewrite sqrt_0 in N. lra.
    + intros q t u v Hq T (U & V & W & R) X. apply In_nth_error in Hq. destruct Hq as (i & Hq). destruct (Hit i q t u v Hq T U V W X) as (_ & _ & A1 & A2 & A3). lra.
  - rewrite Eb. symmetry. apply odd_crossings_ids; [exact ND|]. intros i. rewrite I. split.
    + intros (q & t & Hq & _ & (S & Ht & u & v & X & U & V & W)). exists q. split; [exact Hq|]. exists t, u, v. repeat split; try lra. exact X.
    + intros (q & Hq & t & u & v & T & U & V & W & X). destruct (Hit i q t u v Hq ltac:(lra) ltac:(lra) ltac:(lra) ltac:(lra) X) as (S & A0 & A1 & A2 & A3).
      exists q, t. split; [exact Hq|]. split; [apply L; eapply nth_error_In, Hq|]. split; [exact S|]. split; [exact A0|]. exists u, v. auto.
Qed.
Lemma unit_norm d : d <> Pt 0 0 0 -> norm (unit_dir d) = 1.
Proof.
  intros H. assert (P : 0 < norm d). { unfold norm. apply sqrt_lt_R0. apply (dot_self d H). }
  assert (E : norm d * norm d = px d * px d + py d * py d + pz d * pz d) by (unfold norm; apply sqrt_sqrt; pose proof (dot_self d H) as X; unfold dot in X; lra).
  unfold norm at 1. unfold unit_dir. cbn [px py pz].
  replace (px d / norm d * (px d / norm d) + py d / norm d * (py d / norm d) + pz d / norm d * (pz d / norm d)) with ((px d * px d + py d * py d + pz d * pz d) / (norm d * norm d)) by (field; lra).
  rewrite <- E. unfold Rdiv. rewrite Rinv_r by nra. apply sqrt_1.
Qed.
(** So all successful casts agree. *)
Lemma cast_surrounded junk tris g p d b : (Z.of_nat (length tris) <= 2 ^ 30)%Z -> tris <> [] -> make_query junk tris true = Some g -> (forall q, In q tris -> large q) ->
  closed tris -> clear_of tris p -> d <> Pt 0 0 0 -> cast_ray g (Ray p (unit_dir d)) = Cast b true -> (b = true <-> surrounded tris p).
Proof.
  intros Hl Hn Eg L C P N H. destruct (cast_counts junk tris g p (unit_dir d) b Hl Hn Eg L P (unit_norm d N) H) as (A & E).
  rewrite E. symmetry. apply surrounded_iff; [exact C|apply clear_off, P|exact A].
Qed.
Lemma count_all {X} (f g : X -> bool) l : (forall x, In x l -> f x = true -> g x = true) -> (count f l <= count g l)%nat.
Proof.
  unfold count. induction l as [|x l IH]; intros H; cbn [List.filter]; [lia|]. specialize (IH (fun y Hy => H y (or_intror Hy))). pose proof (H x (or_introl eq_refl)) as K.
  destruct (f x) eqn:F; [rewrite K by reflexivity; cbn [length]; lia|]. destruct (g x); cbn [length]; lia.
Qed.
Lemma count_none {X} (f g : X -> bool) l : (forall x, In x l -> f x = true -> g x = false) -> (forall x, g x = true -> f x = true) -> count g l = 0%nat.
Proof.
  intros H K. unfold count. induction l as [|x l IH]; cbn [List.filter]; [reflexivity|]. specialize (IH (fun y Hy => H y (or_intror Hy))).
  destruct (g x) eqn:G; [|exact IH]. rewrite (H x (or_introl eq_refl) (K x G)) in G. discriminate.
Qed.
Lemma not_in_range tris p : closed tris -> surrounded tris p -> in_range tris p.
Proof.
  intros C S i. split; apply Classical_Prop.NNPP; intros K; apply (outside_range tris p i); try assumption.
  - left. intros q v Hq Hv. apply Rnot_le_lt. intros X. apply K. exists q, v. auto.
  - right. intros q v Hq Hv. apply Rnot_le_lt. intros X. apply K. exists q, v. auto.
Qed.
Lemma inside_iff junk tris g dirs p : (Z.of_nat (length tris) <= 2 ^ 30)%Z -> tris <> [] -> finite_mesh tris -> make_query junk tris true = Some g -> (forall q, In q tris -> large q) ->
  closed tris -> clear_of tris p -> (forall k, dirs k <> Pt 0 0 0) ->
  (is_inside g dirs p = Some true -> surrounded tris p) /\
  (is_inside g dirs p = Some false -> surrounded tris p -> (count succeeded (outcomes g p dirs 100) < 5)%nat).
Proof.
  intros Hl Hn Hf Eg L C P N. destruct (is_inside_ok junk tris true g dirs p Hl Hn Hf Eg) as (Out & In').
  assert (Cast1 : forall n x, In x (outcomes g p dirs n) -> exists k, x = cast_ray g (Ray p (unit_dir (dirs k)))).
  { intros n x Hx. unfold outcomes in Hx. apply in_map_iff in Hx. destruct Hx as (k & <- & _). exists k. reflexivity. }
  split.
  - intros E. apply Classical_Prop.NNPP. intros S. destruct (Classical_Prop.classic (in_range tris p)) as [R|R].
    + destruct (proj1 (proj1 (In' R)) E) as (n & _ & _ & _ & K). rewrite (count_none succeeded said_inside) in K; [lia| |].
      * intros x Hx Sx. destruct (Cast1 n x Hx) as (k & Ex). destruct x as [[|] [|]|]; try discriminate; try reflexivity.
        exfalso. apply S. apply (cast_surrounded junk tris g p (dirs k) true Hl Hn Eg L C P (N k)); [congruence|reflexivity].
      * intros [[|] [|]|]; cbn; congruence.
    + rewrite (Out R) in E. discriminate.
  - intros E Sur. pose proof (not_in_range tris p C Sur) as R. destruct (In' R) as (T & U). apply Nat.nle_gt. intros F.
    assert (FT : is_inside g dirs p = Some true); [|congruence]. apply T.
    assert (Len : forall a, length (outcomes g p dirs a) = a) by (intros a; unfold outcomes; rewrite map_length, seq_length; reflexivity).
    assert (Pre : forall a b, (a <= b)%nat -> exists l, outcomes g p dirs b = outcomes g p dirs a ++ l).
    { intros a b Hab. unfold outcomes. replace b with (a + (b - a))%nat by lia. rewrite seq_app, map_app. eexists. reflexivity. }
    (* the shortest prefix with five successes *)
    assert (Sh : forall m, (5 <= count succeeded (outcomes g p dirs m))%nat ->
      exists m', (m' <= m)%nat /\ count succeeded (outcomes g p dirs m') = 5%nat /\ forall j, (j < m')%nat -> (count succeeded (outcomes g p dirs j) < 5)%nat).
    { clear. induction m as [|m IH]; intros Hm; [cbn in Hm; lia|]. destruct (le_lt_dec 5 (count succeeded (outcomes g p dirs m))) as [Q|Q].
      - destruct (IH Q) as (m' & A & B & D). exists m'. split; [lia|auto].
      - exists (S m). split; [lia|]. assert (St : (count succeeded (outcomes g p dirs (S m)) <= S (count succeeded (outcomes g p dirs m)))%nat).
        { unfold outcomes. rewrite seq_S, map_app. unfold count. rewrite filter_app, app_length. cbn [map List.filter]. destruct (succeeded _); cbn; lia. }
        split; [lia|]. intros j Hj. assert (Mo : (count succeeded (outcomes g p dirs j) <= count succeeded (outcomes g p dirs m))%nat).
        { unfold outcomes. replace m with (j + (m - j))%nat by lia. rewrite seq_app, map_app. unfold count. rewrite filter_app, app_length. lia. }
        lia. }
    destruct (Sh 100%nat F) as (n & Hn5 & H5 & Before). exists n. split; [exact Hn5|]. split; [|split; [exact H5|]].
    + (* an undefined cast before the fifth success would make the test undefined *)
      intros Und. apply In_nth_error in Und. destruct Und as (j & Hj).
      assert (Jm : (j < n)%nat). { assert (X : nth_error (outcomes g p dirs n) j <> None) by congruence. apply nth_error_Some in X. rewrite Len in X. exact X. }
      assert (Nj : nth_error (outcomes g p dirs (S j)) j = Some CastUndefined).
      { destruct (Pre (S j) n Jm) as (l & El). rewrite El, nth_error_app1 in Hj by (rewrite Len; lia). exact Hj. }
      assert (is_inside g dirs p = None); [|congruence]. apply U. exists j. split; [lia|]. auto.
    + assert (count succeeded (outcomes g p dirs n) <= count said_inside (outcomes g p dirs n))%nat; [|lia]. apply count_all. intros x Hx Sx. destruct (Cast1 n x Hx) as (kk & Ex).
      destruct x as [[|] [|]|]; try discriminate; try reflexivity. exfalso.
      assert (W := proj2 (cast_surrounded junk tris g p (dirs kk) false Hl Hn Eg L C P (N kk) (eq_sym Ex)) Sur). discriminate.
Qed.

(** *** Cells *)
Lemma between_box l u tol a b s : 0 <= s <= 1 -> in_box l u tol a -> in_box l u tol b -> in_box l u tol (between a b s).
Proof.
  intros Hs A B i. specialize (A i). specialize (B i). unfold between. destruct i; cbn [at_ vadd vscale vsub px py pz] in *; nra.
Qed.
Lemma centre_box l u tol : (forall i, at_ i l + tol <= at_ i u - tol) -> in_box l u tol (vscale (1/2) (vadd u l)).
Proof. intros H i. specialize (H i). destruct i; cbn [at_ vadd vscale px py pz] in *; lra. Qed.
Lemma cell_side junk tris g dirs l u tol x : (Z.of_nat (length tris) <= 2 ^ 30)%Z -> tris <> [] -> finite_mesh tris -> make_query junk tris true = Some g -> (forall q, In q tris -> large q) ->
  closed tris -> (forall k, dirs k <> Pt 0 0 0) -> 0 <= tol -> (forall i, at_ i l + relative_tol l u tol <= at_ i u - relative_tol l u tol) ->
  clear_of tris (vscale (1/2) (vadd u l)) -> in_box l u (relative_tol l u tol) x ->
  (intersection_state g dirs l u tol = Some LInside -> off_surface tris x /\ surrounded tris x) /\
  (intersection_state g dirs l u tol = Some LOutside -> off_surface tris x /\ (surrounded tris x -> (count succeeded (outcomes g (vscale (1/2) (vadd u l)) dirs 100) < 5)%nat)).
Proof.
  intros Hl Hn Hf Eg L C N T W P Hx. destruct (intersection_state_ok junk tris true g dirs l u tol Hl Hn Eg T W) as (_ & I1 & I2 & _).
  set (centre := vscale (1/2) (vadd u l)) in *. destruct (inside_iff junk tris g dirs centre Hl Hn Hf Eg L C P N) as (J1 & J2).
  assert (Off : (~ exists q y, In q tris /\ in_triangle q y /\ in_box l u (relative_tol l u tol) y) -> forall s, 0 <= s <= 1 -> off_surface tris (between centre x s)).
  { intros M s Hs q Hq K. apply M. exists q, (between centre x s). split; [exact Hq|]. split; [exact K|]. apply between_box; [exact Hs|apply centre_box, W|exact Hx]. }
  assert (B1 : between centre x 1 = x) by (apply pt_ext; unfold between; cbn [vadd vscale vsub px py pz]; ring).
  split; intros E.
  - apply I1 in E. destruct E as (M & E). specialize (Off M). split; [rewrite <- B1; apply Off; lra|]. apply (same_side tris centre x C Off). apply J1, E.
  - apply I2 in E. destruct E as (M & E). specialize (Off M). split; [rewrite <- B1; apply Off; lra|]. intros S. apply (same_side tris centre x C Off) in S. apply J2; assumption.
Qed.

(** *** The centre of a cell that no triangle meets *)
Lemma far_norm e x : 0 < e -> e < Rabs (px x) \/ e < Rabs (py x) \/ e < Rabs (pz x) -> e < norm x.
Proof.
  intros He H. assert (N : forall y, 0 <= y -> e < Rabs (px x) \/ e < Rabs (py x) \/ e < Rabs (pz x) -> y * y = px x * px x + py x * py x + pz x * pz x -> e < y).
  { intros y Hy K E. assert (Q : forall z, e < Rabs z -> e * e < z * z).
    { intros z Hz. rewrite <- (Rabs_right (z * z)) by (apply Rle_ge; nra). rewrite Rabs_mult. nra. }
    destruct K as [K | [K | K]]; apply Q in K; nra. }
  apply N; [apply sqrt_pos | exact H | ]. apply sqrt_sqrt. nra.
Qed.
Lemma retract e L q u v : 0 <= e -> 0 <= L -> - e <= u -> - e <= v -> u + v <= 1 + e ->
  (forall i, Rabs (at_ i (P2 q) - at_ i (P1 q)) <= L /\ Rabs (at_ i (P3 q) - at_ i (P1 q)) <= L) ->
  exists y, in_triangle q y /\ forall i, Rabs (at_ i (plane_point q u v) - at_ i y) <= 4 * e * L.
Proof.
  intros He HL Hu Hv Huv HE. set (k := / (1 + 3 * e)). assert (K : k * (1 + 3 * e) = 1) by (apply Rinv_l; lra).
  assert (K0 : 0 < k) by (apply Rinv_0_lt_compat; lra).
  set (b := (u + e) * k). set (c := (v + e) * k).
  assert (B : 0 <= b) by (apply Rmult_le_pos; lra). assert (C : 0 <= c) by (apply Rmult_le_pos; lra).
  assert (A : 0 <= 1 - b - c) by (replace (1 - b - c) with ((1 + e - u - v) * k) by (unfold b, c; nra); apply Rmult_le_pos; lra).
  assert (D : forall w, - e <= w -> w <= 1 + 2 * e -> Rabs (w - (w + e) * k) <= 2 * e).
  { intros w W1 W2. replace (w - (w + e) * k) with (e * ((3 * w - 1) * k)) by nra. apply Rabs_le.
    assert (M : -2 <= (3 * w - 1) * k <= 2) by nra. nra. }
  assert (Du := D u Hu ltac:(lra)). assert (Dv := D v Hv ltac:(lra)). fold b in Du. fold c in Dv. clearbody b c.
  exists (vadd (P1 q) (vadd (vscale b (vsub (P2 q) (P1 q))) (vscale c (vsub (P3 q) (P1 q))))). split.
  - exists (1 - b - c), b, c. repeat (split; [lra | ]). intros i. destruct i; cbn; ring.
  - intros i. destruct (HE i) as (E2 & E3). set (x := at_ i (P2 q) - at_ i (P1 q)) in *. set (y := at_ i (P3 q) - at_ i (P1 q)) in *.
    match goal with |- Rabs ?z <= _ => replace z with ((u - b) * x + (v - c) * y) by (unfold x, y; destruct i; cbn; ring) end.
    eapply Rle_trans; [apply Rabs_triang | ]. rewrite !Rabs_mult.
    pose proof (Rabs_pos (u - b)). pose proof (Rabs_pos (v - c)). pose proof (Rabs_pos x). pose proof (Rabs_pos y).
    assert (Rabs (u - b) * Rabs x <= 2 * e * L) by (apply Rmult_le_compat; lra).
    assert (Rabs (v - c) * Rabs y <= 2 * e * L) by (apply Rmult_le_compat; lra). lra.
Qed.
(** All edges are at most L long in each coordinate. *)
Definition edges_within (L : R) (tris : list (tri pt)) : Prop := forall q, In q tris -> forall i, Rabs (at_ i (P2 q) - at_ i (P1 q)) <= L /\ Rabs (at_ i (P3 q) - at_ i (P1 q)) <= L.
Lemma centre_clear tris l u tol L : 0 <= L -> edges_within L tris -> (forall i, zerotol * (1 + 4 * L) < (at_ i u - at_ i l) / 2 - tol) ->
  ~ (exists q y, In q tris /\ in_triangle q y /\ in_box l u tol y) -> clear_of tris (vscale (1/2) (vadd u l)).
Proof.
  intros HL HE W M q s t Hq Hs Ht Hst. pose proof zerotol_pos as Z.
  destruct (retract zerotol L q s t (Rlt_le _ _ Z) HL Hs Ht Hst (HE q Hq)) as (y & Hy & D).
  assert (F : in_box l u tol y \/ exists i, at_ i y < at_ i l + tol \/ at_ i u - tol < at_ i y).
  { assert (Dd : forall i, (at_ i l + tol <= at_ i y <= at_ i u - tol) \/ (at_ i y < at_ i l + tol \/ at_ i u - tol < at_ i y)).
    { intros i. destruct (Rlt_le_dec (at_ i y) (at_ i l + tol)); [auto | ]. destruct (Rlt_le_dec (at_ i u - tol) (at_ i y)); auto. }
    destruct (Dd AX); [ | right; exists AX; assumption]. destruct (Dd AY); [ | right; exists AY; assumption]. destruct (Dd AZ); [ | right; exists AZ; assumption].
    left. intros i. destruct i; assumption. }
  destruct F as [B | (i & B)]; [exfalso; apply M; exists q, y; auto | ]. apply far_norm; [exact Z | ].
  specialize (W i). specialize (D i). apply abs_bounds in D.
  assert (K : zerotol < Rabs (at_ i (plane_point q s t) - (at_ i u + at_ i l) / 2)).
  { set (z := at_ i (plane_point q s t)) in *. clearbody z. set (e := zerotol) in *. clearbody e.
    destruct (Rlt_le_dec (at_ i y) (at_ i l + tol)) as [Lt | Ge].
    - rewrite Rabs_left1; lra.
    - rewrite Rabs_pos_eq; lra. }
  destruct i; [left | right; left | right; right]; cbn [at_ vsub vscale vadd px py pz] in *;
    match goal with |- _ < Rabs ?a => match type of K with _ < Rabs ?b => replace a with b by (field) end end; exact K.
Qed.
Lemma cell_side_wide junk tris g dirs l u tol L x : (Z.of_nat (length tris) <= 2 ^ 30)%Z -> tris <> [] -> finite_mesh tris -> make_query junk tris true = Some g -> (forall q, In q tris -> large q) ->
  closed tris -> (forall k, dirs k <> Pt 0 0 0) -> 0 <= tol -> 0 <= L -> edges_within L tris ->
  (forall i, zerotol * (1 + 4 * L) < (at_ i u - at_ i l) / 2 - relative_tol l u tol) -> in_box l u (relative_tol l u tol) x ->
  (intersection_state g dirs l u tol = Some LInside -> off_surface tris x /\ surrounded tris x) /\
  (intersection_state g dirs l u tol = Some LOutside -> off_surface tris x /\ (surrounded tris x -> (count succeeded (outcomes g (vscale (1/2) (vadd u l)) dirs 100) < 5)%nat)).
Proof.
  intros Hl Hn Hf Eg La C N T HL HE W Hx.
  assert (W' : forall i, at_ i l + relative_tol l u tol <= at_ i u - relative_tol l u tol).
  { intros i. specialize (W i). pose proof zerotol_pos. assert (0 < zerotol * (1 + 4 * L)) by (apply Rmult_lt_0_compat; lra). lra. }
  destruct (intersection_state_ok junk tris true g dirs l u tol Hl Hn Eg T W') as (_ & I1 & I2 & _).
  split; intros E.
  - destruct (proj1 I1 E) as (M & _). apply (cell_side junk tris g dirs l u tol x); auto. apply (centre_clear tris l u (relative_tol l u tol) L); assumption.
  - destruct (proj1 I2 E) as (M & _). apply (cell_side junk tris g dirs l u tol x); auto. apply (centre_clear tris l u (relative_tol l u tol) L); assumption.
Qed.
