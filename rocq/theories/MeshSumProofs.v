(** Proofs about bounding boxes, parallel sums and moved meshes. *)
From Coq Require Import Reals List Arith Lia Lra Permutation ZArith.
From Verif Require Import Geo MappingModel TrimmedQuadModel MeshModel MeshProofs MeshGeoModel MeshGeoProofs MeshBoxProofs.
Import ListNotations.
Local Open Scope R_scope.

(** *** Bounding box *)
(** The corners of a triangle. *)
Definition corner (t : tri pt) (p : pt) : Prop := p = P1 t \/ p = P2 t \/ p = P3 t.

Lemma grow_lower d b t : at_ d (lower (grow_box b t)) = Rmin (min3 (at_ d (P1 t)) (at_ d (P2 t)) (at_ d (P3 t))) (at_ d (lower b)).
Proof. destruct d; reflexivity. Qed.
Lemma grow_upper d b t : at_ d (upper (grow_box b t)) = Rmax (max3 (at_ d (P1 t)) (at_ d (P2 t)) (at_ d (P3 t))) (at_ d (upper b)).
Proof. destruct d; reflexivity. Qed.
Lemma min3_spec a b c : min3 a b c <= a /\ min3 a b c <= b /\ min3 a b c <= c /\ (min3 a b c = a \/ min3 a b c = b \/ min3 a b c = c).
Proof. unfold min3, Rmin. destruct (Rle_dec a b); destruct (Rle_dec _ c); lra. Qed.
Lemma max3_spec a b c : a <= max3 a b c /\ b <= max3 a b c /\ c <= max3 a b c /\ (max3 a b c = a \/ max3 a b c = b \/ max3 a b c = c).
Proof. unfold max3, Rmax. destruct (Rle_dec a b); destruct (Rle_dec _ c); lra. Qed.

Lemma grow_spec l d : forall b, let r := fold_left grow_box l b in
  (at_ d (lower r) <= at_ d (lower b) /\ at_ d (upper b) <= at_ d (upper r)) /\
  (forall t p, In t l -> corner t p -> at_ d (lower r) <= at_ d p <= at_ d (upper r)) /\
  (at_ d (lower r) = at_ d (lower b) \/ exists t p, In t l /\ corner t p /\ at_ d p = at_ d (lower r)) /\
  (at_ d (upper r) = at_ d (upper b) \/ exists t p, In t l /\ corner t p /\ at_ d p = at_ d (upper r)).
Proof.
  induction l as [|t l IH]; intros b; cbn [fold_left].
  - split; [lra|]. split; [intros t p []|]. auto.
  - destruct (IH (grow_box b t)) as [H1 [H2 [H3 H4]]].
    set (r := fold_left grow_box l (grow_box b t)) in *. rewrite grow_lower, grow_upper in *.
    destruct (min3_spec (at_ d (P1 t)) (at_ d (P2 t)) (at_ d (P3 t))) as [m1 [m2 [m3 M]]].
    destruct (max3_spec (at_ d (P1 t)) (at_ d (P2 t)) (at_ d (P3 t))) as [x1 [x2 [x3 X]]].
    set (mn := min3 _ _ _) in *. set (mx := max3 _ _ _) in *.
    assert (A1 := Rmin_l mn (at_ d (lower b))). assert (A2 := Rmin_r mn (at_ d (lower b))).
    assert (B1 := Rmax_l mx (at_ d (upper b))). assert (B2 := Rmax_r mx (at_ d (upper b))).
    split; [lra|]. split; [|split].
    + intros s p [<- | I] C; [|apply (H2 s p I C)]. destruct C as [-> | [-> | ->]]; lra.
    + destruct H3 as [H3 | [s [p [I [C E]]]]]; [|right; exists s, p; split; [right; exact I | auto]].
      unfold Rmin in H3. destruct (Rle_dec mn (at_ d (lower b))) as [L|L]; [|left; exact H3]. right.
      destruct M as [M|[M|M]]; [exists t, (P1 t) | exists t, (P2 t) | exists t, (P3 t)]; (split; [left; reflexivity|]); unfold corner; split; auto; congruence.
    + destruct H4 as [H4 | [s [p [I [C E]]]]]; [|right; exists s, p; split; [right; exact I | auto]].
      unfold Rmax in H4. destruct (Rle_dec mx (at_ d (upper b))) as [L|L]; [left; exact H4|]. right.
      destruct X as [X|[X|X]]; [exists t, (P1 t) | exists t, (P2 t) | exists t, (P3 t)]; (split; [left; reflexivity|]); unfold corner; split; auto; congruence.
Qed.
Lemma bounding_box_ok maxd lowestd m l : visit m = Some l -> l <> [] ->
  (forall t p d, In t l -> corner t p -> lowestd <= at_ d p <= maxd) ->
  exists b, mesh_bounding_box maxd lowestd m = Some b /\
    (forall t p, In t l -> corner t p -> in_closed b p) /\
    (forall d, (exists t p, In t l /\ corner t p /\ at_ d p = at_ d (lower b)) /\
               (exists t p, In t l /\ corner t p /\ at_ d p = at_ d (upper b))).
Proof.
  intros Vi N R. unfold mesh_bounding_box. rewrite Vi. cbn [option_map]. eexists. split; [reflexivity|].
  set (b0 := Box _ _). split.
  - intros t p I C d. destruct (grow_spec l d b0) as [_ [H _]]. apply (H t p I C).
  - intros d. destruct (grow_spec l d b0) as [H1 [H2 [H3 H4]]]. destruct l as [|t l]; [congruence|].
    assert (C : corner t (P1 t)) by (left; reflexivity). specialize (H2 t (P1 t) (or_introl eq_refl) C).
    specialize (R t (P1 t) d (or_introl eq_refl) C).
    assert (L0 : at_ d (lower b0) = maxd) by (destruct d; reflexivity).
    assert (U0 : at_ d (upper b0) = lowestd) by (destruct d; reflexivity).
    split.
    + destruct H3 as [H3|H3]; [|exact H3]. exists t, (P1 t). split; [left; reflexivity|]. split; [exact C|]. lra.
    + destruct H4 as [H4|H4]; [|exact H4]. exists t, (P1 t). split; [left; reflexivity|]. split; [exact C|]. lra.
Qed.
(** The box of a mesh without triangles is inverted. *)
Lemma bounding_box_empty maxd lowestd m : m_triangles m = [] ->
  mesh_bounding_box maxd lowestd m = Some (Box (Pt maxd maxd maxd) (Pt lowestd lowestd lowestd)).
Proof. intros E. unfold mesh_bounding_box, visit, num_triangles. rewrite E. reflexivity. Qed.

(** *** Parallel sums *)
Lemma reduction_sum {A} (f : A -> R) c : reduction f c = sum f (concat c).
Proof.
  unfold reduction. rewrite (fold_sum (chunk_sum f)), Rplus_0_l. induction c as [|x c IH]; cbn [sum concat]; [reflexivity|].
  rewrite sum_app, IH. f_equal. unfold chunk_sum. rewrite fold_sum. ring.
Qed.
Lemma visit_chunks_some {A} (get : nat -> option A) c r : visit_list get (concat c) = Some r ->
  exists rc, visit_chunks get c = Some rc /\ concat rc = r.
Proof.
  revert r. induction c as [|x c IH]; intros r H; cbn [concat] in H.
  - injection H as <-. exists []. auto.
  - assert (S : forall l1 l2 r, visit_list get (l1 ++ l2) = Some r -> exists r1 r2, visit_list get l1 = Some r1 /\ visit_list get l2 = Some r2 /\ r = r1 ++ r2).
    { induction l1 as [|y l1 IH1]; intros l2 r' E; cbn [app] in E; [exists [], r'; auto|]. cbn [visit_list] in *.
      destruct (get y) as [a|]; [|discriminate]. destruct (visit_list get (l1 ++ l2)) as [q|] eqn:Q; [|discriminate].
      injection E as <-. destruct (IH1 _ _ Q) as [r1 [r2 [-> [-> ->]]]]. exists (a :: r1), r2. auto. }
    destruct (S _ _ _ H) as [r1 [r2 [E1 [E2 ->]]]]. destruct (IH _ E2) as [rc [C1 C2]].
    exists (r1 :: rc). unfold visit_chunks in *. cbn [fold_right]. rewrite E1, C1. cbn. rewrite C2. auto.
Qed.
Lemma visit_perm {A} (get : nat -> option A) l l' r : Permutation l l' -> visit_list get l = Some r ->
  exists r', visit_list get l' = Some r' /\ Permutation r r'.
Proof.
  intros P. revert r. induction P as [|x l l' P IH|x y l|l l' l'' P IH P' IH']; intros r H.
  - injection H as <-. exists []. auto.
  - cbn [visit_list] in *. destruct (get x) as [a|]; [|discriminate].
    destruct (visit_list get l) as [q|] eqn:Q; [|discriminate]. injection H as <-.
    destruct (IH q eq_refl) as [q' [-> PQ]]. cbn. eauto.
  - cbn [visit_list] in *. destruct (get x) as [a|]; destruct (get y) as [b|]; try discriminate.
    + destruct (visit_list get l) as [q|]; [|discriminate]. injection H as <-. cbn. eexists. split; [reflexivity|]. constructor.
  - destruct (IH r H) as [r' [H' PR]]. destruct (IH' r' H') as [r'' [H'' PR']]. exists r''. split; [exact H''|]. eapply perm_trans; eassumption.
Qed.
Lemma int_of_size_small n : (n < 2 ^ 31)%N -> int_of_size n = Z.of_N n.
Proof.
  intros H. unfold int_of_size. assert (Z.of_N n < 2 ^ 31)%Z by (change (2 ^ 31)%Z with (Z.of_N (2 ^ 31)); lia).
  rewrite Z.mod_small by lia. destruct (Z.ltb_spec (Z.of_N n) (2 ^ 31)); [reflexivity | lia].
Qed.
Lemma omp_indices_small m : (N.of_nat (num_triangles m) < 2 ^ 31)%N -> omp_indices m = seq 0 (num_triangles m).
Proof. intros H. unfold omp_indices. rewrite int_of_size_small by exact H. f_equal. lia. Qed.
Lemma parallel_ok m chunks : well_formed m -> (N.of_nat (num_triangles m) < 2 ^ 31)%N -> Permutation (concat chunks) (omp_indices m) ->
  mesh_area_omp chunks m = mesh_area m /\ mesh_volume_omp chunks m = mesh_volume m.
Proof.
  intros W S P. rewrite omp_indices_small in P by exact S. apply Permutation_sym in P.
  destruct (visit_n_wf m W) as [l Vi]. assert (Vf := visit_fst m l Vi).
  destruct (visit_perm _ _ _ _ P Vi) as [r [R1 R2]]. destruct (visit_chunks_some _ _ _ R1) as [rc [C1 C2]].
  destruct (visit_perm _ _ _ _ P Vf) as [s [S1 S2]]. destruct (visit_chunks_some _ _ _ S1) as [sc [D1 D2]].
  split.
  - unfold mesh_area_omp. rewrite D1, (area_visit m l Vi). cbn [option_map]. rewrite reduction_sum, D2. f_equal.
    rewrite <- (sum_perm _ _ _ S2). apply sum_map.
  - unfold mesh_volume_omp. rewrite C1, (volume_visit m l Vi). cbn [option_map]. rewrite reduction_sum, C2.
    rewrite <- (sum_perm _ _ _ R2). reflexivity.
Qed.
(** With 2^31 triangles or more the loop counter type is too small. *)
Lemma omp_indices_large m : (2 ^ 31 <= N.of_nat (num_triangles m) < 2 ^ 32)%N -> omp_indices m = [].
Proof.
  intros [H1 H2]. unfold omp_indices, int_of_size. set (n := N.of_nat (num_triangles m)) in *.
  assert (Z.of_N (2 ^ 31) <= Z.of_N n < Z.of_N (2 ^ 32))%Z by lia.
  change (Z.of_N (2 ^ 31)) with (2 ^ 31)%Z in H. change (Z.of_N (2 ^ 32)) with (2 ^ 32)%Z in H.
  rewrite Z.mod_small by lia. destruct (Z.ltb_spec (Z.of_N n) (2 ^ 31)); [lia|].
  assert (E : Z.to_nat (Z.of_N n - 2 ^ 32) = O) by lia. rewrite E. reflexivity.
Qed.
Lemma concat_nil_perm {A} (c : list (list A)) : Permutation (concat c) [] -> concat c = [].
Proof. intros P. apply Permutation_sym, Permutation_nil in P. exact P. Qed.

(** *** Moved meshes *)
Lemma move_corners v vs t : corners (map (vadd v) vs) t = option_map (move_tri v) (corners vs t).
Proof.
  destruct t as [[i j] k]. unfold corners. rewrite !nth_error_map.
  destruct (nth_error vs i), (nth_error vs j), (nth_error vs k); reflexivity.
Qed.
Definition move_q (v : pt) (q : tri pt * pt) : tri pt * pt := (move_tri v (fst q), snd q).
Lemma move_visit v m l : visit_n m = Some l -> visit_n (move_mesh v m) = Some (map (move_q v) l).
Proof.
  unfold visit_n, num_triangles. cbn [move_mesh m_triangles]. rewrite !visit_seq. intros [L F]. split; [rewrite map_length; exact L|].
  intros i I. rewrite nth_error_map, F by exact I. unfold triangle_n, triangle. cbn [move_mesh m_vertices m_triangles m_normals].
  destruct (nth_error (m_triangles m) i) as [t|]; [|reflexivity]. rewrite move_corners.
  destruct (corners (m_vertices m) t); [|reflexivity]. cbn. destruct (nth_error (m_normals m) i); reflexivity.
Qed.
Lemma move_area2 v t : area2 (move_tri v t) = area2 t.
Proof. unfold area2, move_tri, cross, vsub, vadd. cbn [P1 P2 P3 px py pz]. f_equal; ring. Qed.
Lemma move_det v t : det (move_tri v t) = det t + dot v (area2 t).
Proof. unfold det, area2, move_tri, dot, cross, vsub, vadd. cbn [P1 P2 P3 px py pz]. ring. Qed.
Lemma move_closed v l : closed l -> closed (map (move_tri v) l).
Proof.
  intros C. unfold closed in *. set (f := fun e : pt * pt => (vadd v (fst e), vadd v (snd e))).
  assert (E : flat_map tri_edges (map (move_tri v) l) = map f (flat_map tri_edges l)).
  { clear C. induction l as [|t l IH]; cbn; [reflexivity|]. rewrite IH. reflexivity. }
  rewrite E, map_map. rewrite (map_ext (fun x => flip (f x)) (fun x => f (flip x))) by (intros [a b]; reflexivity).
  rewrite <- (map_map flip f). apply Permutation_map, C.
Qed.
Lemma closed_area2 l d : closed l -> sum (fun t => at_ d (area2 t)) l = 0.
Proof.
  intros C. rewrite (sum_ext _ (fun t => 2 * sum (fun e => 1/2 * at_ d (cross (fst e) (snd e))) (tri_edges t))).
  - rewrite sum_scal, <- sum_flat', closed_sum; [ring | exact C|].
    intros a b. cbn [fst snd]. destruct d; cbn [at_ cross px py pz]; ring.
  - intros t _. rewrite <- tri_area_vec. field.
Qed.
Lemma move_volume v m l : visit_n m = Some l -> closed (map fst l) -> Forall exact_normal l ->
  mesh_volume (move_mesh v m) = mesh_volume m /\ mesh_area (move_mesh v m) = mesh_area m.
Proof.
  intros Vi C E. assert (Vm := move_visit v m l Vi).
  assert (M : map fst (map (move_q v) l) = map (move_tri v) (map fst l)) by (rewrite !map_map; reflexivity).
  split.
  - assert (Cm : closed (map fst (map (move_q v) l))) by (rewrite M; apply move_closed, C).
    assert (Em : Forall exact_normal (map (move_q v) l)).
    { rewrite Forall_forall in *. intros q I. apply in_map_iff in I as [q0 [<- I]]. unfold exact_normal, move_q. cbn [fst snd].
      rewrite move_area2. apply E, I. }
    rewrite (proj1 (closed_volume _ _ Vm Cm Em)), (proj1 (closed_volume _ _ Vi C E)). f_equal. f_equal. f_equal.
    rewrite M, sum_map. rewrite (sum_ext _ (fun t => det t + (px v * at_ AX (area2 t) + py v * at_ AY (area2 t) + pz v * at_ AZ (area2 t)))).
    + rewrite !sum_plus, !sum_scal, !closed_area2 by exact C. ring.
    + intros t _. rewrite move_det. unfold dot. reflexivity.
  - rewrite (area_visit _ _ Vm), (area_visit _ _ Vi). f_equal. rewrite sum_map. apply sum_ext. intros q _. unfold move_q. cbn [fst].
    unfold tri_area. fold (area2 (move_tri v (fst q))). rewrite move_area2. reflexivity.
Qed.
