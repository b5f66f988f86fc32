(** Proofs about box meshes, closed meshes, bounding boxes and parallel sums. *)
From Coq Require Import Reals List Arith Lia Lra Permutation ZArith.
From Verif Require Import Geo MappingModel TrimmedQuadModel MeshModel MeshProofs MeshGeoModel MeshGeoProofs.
Import ListNotations.
Local Open Scope R_scope.

(** *** Closed meshes: specification *)
(** The directed edges of a triangle. *)
Definition tri_edges {V} (t : tri V) : list (V * V) := [(P1 t, P2 t); (P2 t, P3 t); (P3 t, P1 t)].
Definition flip {V} (e : V * V) : V * V := (snd e, fst e).
(** Every directed edge occurs as often as its reverse. *)
Definition closed {V} (l : list (tri V)) : Prop :=
  Permutation (flat_map tri_edges l) (map flip (flat_map tri_edges l)).
(** The stored normal is the unit normal of the triangle. *)
Definition exact_normal (q : tri pt * pt) : Prop := vscale (norm (area2 (fst q))) (snd q) = area2 (fst q).
(** Six times the signed volume of the cone from the origin over a triangle. *)
Definition det (t : tri pt) : R := dot (P1 t) (cross (P2 t) (P3 t)).

Lemma closed_sum {V} (l : list (tri V)) (g : V * V -> R) : closed l -> (forall a b, g (b, a) = - g (a, b)) ->
  sum g (flat_map tri_edges l) = 0.
Proof.
  intros C G. assert (E := sum_perm g _ _ C). rewrite sum_map in E.
  rewrite (sum_ext (fun a => g (flip a)) (fun a => - 1 * g a)) in E by (intros [a b] _; unfold flip; cbn; rewrite G; ring).
  assert (S : forall (c : R) (h : V * V -> R) s, sum (fun a => c * h a) s = c * sum h s).
  { intros c h s. induction s as [|x s IH]; cbn [sum]; [ring|]. rewrite IH. ring. }
  rewrite S in E. lra.
Qed.
Lemma sum_flat' {A B} (f : B -> R) (g : A -> list B) l : sum f (flat_map g l) = sum (fun a => sum f (g a)) l.
Proof. induction l as [|x l IH]; cbn [flat_map sum]; [reflexivity|]. rewrite sum_app, IH. reflexivity. Qed.
Lemma sum_plus {A} (f g : A -> R) l : sum (fun a => f a + g a) l = sum f l + sum g l.
Proof. induction l as [|x l IH]; cbn [sum]; [ring|]. rewrite IH. ring. Qed.
Lemma sum_scal {A} c (f : A -> R) l : sum (fun a => c * f a) l = c * sum f l.
Proof. induction l as [|x l IH]; cbn [sum]; [ring|]. rewrite IH. ring. Qed.

Lemma exact_at q d : exact_normal q -> at_ d (snd q) * tri_area (fst q) = 1/2 * at_ d (area2 (fst q)).
Proof.
  unfold exact_normal. intros E. rewrite <- E. unfold tri_area. fold (area2 (fst q)).
  destruct d; cbn [at_ vscale px py pz]; ring.
Qed.
(** The cone from the origin over an edge. *)
Definition edge_term (d : axis) (e : pt * pt) : R :=
  1/6 * (at_ d (fst e) + at_ d (snd e)) * at_ d (cross (fst e) (snd e)).
Lemma tri_moment d t : 1/2 * at_ d (area2 t) * at_ d (tri_center t) = 1/6 * det t + sum (edge_term d) (tri_edges t).
Proof.
  destruct t as [[a0 a1 a2] [b0 b1 b2] [c0 c1 c2]].
  destruct d; unfold tri_center, area2, det, edge_term, tri_edges, dot, cross, vsub; cbn [sum fst snd P1 P2 P3 at_ px py pz]; field.
Qed.
Lemma tri_area_vec d t : 1/2 * at_ d (area2 t) = sum (fun e => 1/2 * at_ d (cross (fst e) (snd e))) (tri_edges t).
Proof.
  destruct t as [[a0 a1 a2] [b0 b1 b2] [c0 c1 c2]].
  destruct d; unfold area2, tri_edges, cross, vsub; cbn [sum fst snd P1 P2 P3 at_ px py pz]; field.
Qed.
Lemma total_sum f l : total f l = sum f l.
Proof. unfold total. rewrite fold_sum. ring. Qed.

Lemma closed_dir l d : closed (map fst l) -> Forall exact_normal l -> sum (dir_volume d) l = 1/6 * sum det (map fst l).
Proof.
  intros C E. rewrite (sum_ext _ (fun q => 1/6 * det (fst q) + sum (edge_term d) (tri_edges (fst q)))).
  - rewrite sum_plus, sum_scal, sum_map.
    rewrite <- (sum_map fst (fun t => sum (edge_term d) (tri_edges t))), <- sum_flat', closed_sum; [ring | exact C|].
    intros a b. unfold edge_term. cbn [fst snd]. destruct d; cbn [at_ cross px py pz]; ring.
  - intros q I. rewrite Forall_forall in E. rewrite <- tri_moment, <- (exact_at q d (E q I)). unfold dir_volume. ring.
Qed.
Lemma closed_area l d : closed (map fst l) -> Forall exact_normal l -> sum (dir_area d) l = 0.
Proof.
  intros C E. rewrite (sum_ext _ (fun q => sum (fun e => 1/2 * at_ d (cross (fst e) (snd e))) (tri_edges (fst q)))).
  - rewrite <- (sum_map fst (fun t => sum (fun e => 1/2 * at_ d (cross (fst e) (snd e))) (tri_edges t))), <- sum_flat', closed_sum; [reflexivity | exact C|].
    intros a b. cbn [fst snd]. destruct d; cbn [at_ cross px py pz]; ring.
  - intros q I. rewrite Forall_forall in E. rewrite <- tri_area_vec, <- (exact_at q d (E q I)). unfold dir_area. ring.
Qed.
Lemma flux_dirs l : sum tri_flux l = sum (dir_volume AX) l + sum (dir_volume AY) l + sum (dir_volume AZ) l.
Proof.
  rewrite <- !sum_plus. apply sum_ext. intros q _. unfold tri_flux, dir_volume, dot. cbn [at_]. ring.
Qed.

Lemma closed_volume m l : visit_n m = Some l -> closed (map fst l) -> Forall exact_normal l ->
  mesh_volume m = Some (Rabs (1/6 * sum det (map fst l))) /\
  (forall d, mesh_volume_dir m d = Some (Rabs (1/6 * sum det (map fst l)))).
Proof.
  intros Vi C E. split.
  - rewrite (volume_visit m l Vi), flux_dirs, !closed_dir by assumption. f_equal. f_equal. field.
  - intros d. rewrite (volume_dir_visit m l d Vi). fold (dir_volume d). rewrite closed_dir by assumption. reflexivity.
Qed.
Lemma closed_quality m l : visit_n m = Some l -> closed (map fst l) -> Forall exact_normal l ->
  let v := 1/6 * sum det (map fst l) in
  (0 <= v -> estimate_quality m = Some 0) /\ (v <= - / 10 ^ 14 -> estimate_quality m = Some 2).
Proof.
  intros Vi C E v. unfold estimate_quality. rewrite Vi. cbn [option_map]. cbv zeta.
  rewrite !total_sum, !closed_dir, !closed_area by assumption. fold v.
  assert (E10 : 0 < / 10 ^ 14) by (apply Rinv_0_lt_compat, pow_lt; lra).
  replace ((v + v + v) / 3) with v by field.
  assert (N0 : norm (Pt 0 0 0) = 0).
  { unfold norm. cbn [px py pz]. replace (0 * 0 + 0 * 0 + 0 * 0) with 0 by ring. apply sqrt_0. }
  rewrite N0. set (z := Rmax (Rabs (sum _ _)) _).
  assert (Z : 0 < z) by (apply Rlt_le_trans with (/ 10 ^ 14); [exact E10 | apply Rmax_r]).
  replace (0 / z) with 0 by (field; lra).
  split; intros H; f_equal.
  - rewrite (Rabs_pos_eq v) by exact H. replace (v - v) with 0 by ring. rewrite Rabs_R0.
    set (y := Rmax v (/ 10 ^ 14)). assert (Y : 0 < y) by (apply Rlt_le_trans with (/ 10 ^ 14); [exact E10 | apply Rmax_r]).
    replace (0 / y) with 0 by (field; lra). rewrite !(Rmax_left 0 0) by lra. reflexivity.
  - rewrite (Rabs_left v) by lra. replace (v - - v) with (2 * v) by ring. rewrite (Rabs_left (2 * v)) by lra.
    rewrite (Rmax_left (- v)) by lra. replace (- (2 * v) / - v) with 2 by (field; lra).
    rewrite !(Rmax_left 2 2), (Rmax_left 2 0) by lra. reflexivity.
Qed.

(** The normal computed for a triangle that is not degenerate is the exact one. *)
Lemma cross_cases t : cross (vsub (P2 t) (P1 t)) (vsub (P3 t) (P2 t)) = area2 t /\
  cross (vsub (P1 t) (P3 t)) (vsub (P2 t) (P1 t)) = area2 t /\ cross (vsub (P3 t) (P2 t)) (vsub (P1 t) (P3 t)) = area2 t.
Proof.
  destruct t as [[a0 a1 a2] [b0 b1 b2] [c0 c1 c2]]. unfold area2, cross, vsub. cbn [P1 P2 P3 px py pz].
  repeat split; f_equal; ring.
Qed.
Lemma tri_normal_eq t : tri_normal t = if Rlt_dec zerotol (norm (area2 t)) then vscale (1 / norm (area2 t)) (area2 t) else Pt 0 0 0.
Proof.
  destruct (cross_cases t) as [A [B C]]. unfold tri_normal. rewrite A, B, C.
  destruct (_ && _)%bool; [reflexivity|]. destruct (_ && _)%bool; reflexivity.
Qed.
Lemma vscale_vscale a b v : vscale a (vscale b v) = vscale (a * b) v.
Proof. unfold vscale. cbn [px py pz]. f_equal; ring. Qed.
Lemma tri_normal_exact t : zerotol < norm (area2 t) -> exact_normal (t, tri_normal t).
Proof.
  intros H. unfold exact_normal. cbn [fst snd]. rewrite tri_normal_eq. destruct (Rlt_dec _ _); [|contradiction].
  assert (Z := zerotol_pos). rewrite vscale_vscale. replace (norm (area2 t) * (1 / norm (area2 t))) with 1 by (field; lra).
  apply vscale_1.
Qed.
Lemma tri_normal_unit t : norm (tri_normal t) = if Rlt_dec zerotol (norm (area2 t)) then 1 else 0.
Proof.
  rewrite tri_normal_eq. assert (Z := zerotol_pos). destruct (Rlt_dec zerotol (norm (area2 t))).
  - assert (0 < / norm (area2 t)) by (apply Rinv_0_lt_compat; lra).
    rewrite norm_scale by (unfold Rdiv; lra). field. lra.
  - unfold norm. cbn [px py pz]. replace (0 * 0 + 0 * 0 + 0 * 0) with 0 by ring. apply sqrt_0.
Qed.

(** A mesh moved by a vector. *)
Definition move_mesh (v : pt) (m : mesh pt) : mesh pt := Mesh (map (vadd v) (m_vertices m)) (m_triangles m) (m_normals m).
Definition move_tri (v : pt) (t : tri pt) : tri pt := Tri (vadd v (P1 t)) (vadd v (P2 t)) (vadd v (P3 t)).

(** *** Box meshes *)
Definition box_tris (lo up : pt) : list (tri pt * pt) :=
  let v0 := Pt (px lo) (py lo) (pz lo) in let v1 := Pt (px up) (py lo) (pz lo) in
  let v2 := Pt (px lo) (py up) (pz lo) in let v3 := Pt (px up) (py up) (pz lo) in
  let v4 := Pt (px lo) (py lo) (pz up) in let v5 := Pt (px up) (py lo) (pz up) in
  let v6 := Pt (px lo) (py up) (pz up) in let v7 := Pt (px up) (py up) (pz up) in
  [ (Tri v0 v6 v2, Pt (-1) 0 0); (Tri v0 v4 v6, Pt (-1) 0 0); (Tri v1 v7 v5, Pt 1 0 0); (Tri v1 v3 v7, Pt 1 0 0);
    (Tri v4 v1 v5, Pt 0 (-1) 0); (Tri v4 v0 v1, Pt 0 (-1) 0); (Tri v6 v7 v3, Pt 0 1 0); (Tri v6 v3 v2, Pt 0 1 0);
    (Tri v1 v0 v3, Pt 0 0 (-1)); (Tri v0 v2 v3, Pt 0 0 (-1)); (Tri v4 v5 v7, Pt 0 0 1); (Tri v4 v7 v6, Pt 0 0 1) ].
Lemma box_visit lo up : visit_n (mesh_box lo up) = Some (box_tris lo up).
Proof. reflexivity. Qed.

(** The directed edges of index triples. *)
Definition index_edges (t : itri) : list (nat * nat) := let '(i, j, k) := t in [(i, j); (j, k); (k, i)].
(** Every edge belongs to exactly two triangles, which run through it in opposite directions. *)
Definition two_manifold {V} (m : mesh V) : Prop :=
  let E := flat_map index_edges (m_triangles m) in
  NoDup E /\ forall e, In e E -> In (flip e) E /\ fst e <> snd e.

Definition neqb (a b : nat * nat) : bool := ((fst a =? fst b) && (snd a =? snd b))%nat%bool.
Lemma neqb_eq a b : neqb a b = true <-> a = b.
Proof.
  unfold neqb. rewrite Bool.andb_true_iff, !Nat.eqb_eq. destruct a, b; cbn. split; [intros [-> ->]; reflexivity|].
  intros E. injection E as -> ->. auto.
Qed.
Fixpoint nodupb (l : list (nat * nat)) : bool :=
  match l with [] => true | x :: l => (negb (existsb (neqb x) l) && nodupb l)%bool end.
Lemma nodupb_ok l : nodupb l = true -> NoDup l.
Proof.
  induction l as [|x l IH]; cbn [nodupb]; [constructor|]. rewrite Bool.andb_true_iff, Bool.negb_true_iff. intros [A B].
  constructor; [|apply IH, B]. intros I. assert (X : existsb (neqb x) l = true); [|congruence].
  apply existsb_exists. exists x. split; [exact I | apply neqb_eq; reflexivity].
Qed.
Lemma box_manifold lo up : two_manifold (mesh_box lo up).
Proof.
  unfold two_manifold. cbn [mesh_box fold_left add_vertex add_triangle m_triangles fst snd app empty_mesh flat_map index_edges].
  split; [apply nodupb_ok; reflexivity|].
  set (E := [_; _; _; _; _; _; _; _; _; _; _; _; _; _; _; _; _; _; _; _; _; _; _; _; _; _; _; _; _; _; _; _; _; _; _; _]).
  assert (F : forallb (fun e => (existsb (neqb (flip e)) E && negb (fst e =? snd e)%nat)%bool) E = true) by reflexivity.
  rewrite forallb_forall in F. intros e I. apply F in I. apply Bool.andb_true_iff in I as [I1 I2].
  apply existsb_exists in I1 as [x [I1 X]]. apply neqb_eq in X. rewrite X. split; [exact I1|].
  apply Bool.negb_true_iff, Nat.eqb_neq in I2. exact I2.
Qed.

(** A two-manifold mesh is closed. *)
Lemma flip_flip {V} (e : V * V) : flip (flip e) = e. Proof. destruct e; reflexivity. Qed.
Lemma flip_inj {V} (a b : V * V) : flip a = flip b -> a = b.
Proof. intros E. rewrite <- (flip_flip a), E. apply flip_flip. Qed.
Lemma manifold_perm E : NoDup E -> (forall e : nat * nat, In e E -> In (flip e) E) -> Permutation E (map flip E).
Proof.
  intros N C. apply NoDup_Permutation; [exact N| |].
  - clear C. induction N as [|x l NI N IH]; cbn [map]; constructor; [|exact IH].
    intros I. apply in_map_iff in I as [y [Y I]]. apply flip_inj in Y. subst. contradiction.
  - intros x. split; intros I.
    + apply in_map_iff. exists (flip x). split; [apply flip_flip | apply C, I].
    + apply in_map_iff in I as [y [<- I]]. apply C, I.
Qed.
Lemma manifold_closed {V} (d : V) (m : mesh V) l : two_manifold m -> visit m = Some l -> closed l.
Proof.
  intros [N C] Vi. assert (P := manifold_perm _ N (fun e I => proj1 (C e I))).
  set (f := fun e : nat * nat => (nth (fst e) (m_vertices m) d, nth (snd e) (m_vertices m) d)).
  assert (E : flat_map tri_edges l = map f (flat_map index_edges (m_triangles m))).
  { assert (G : l = map (fun t : itri => let '(i, j, k) := t in Tri (nth i (m_vertices m) d) (nth j (m_vertices m) d) (nth k (m_vertices m) d)) (m_triangles m)).
    { apply visit_seq in Vi as [L F]. apply nth_error_ext'; [rewrite map_length; exact L|]. intros i I.
      rewrite F by lia. rewrite nth_error_map. specialize (F i ltac:(lia)). unfold triangle in *.
      destruct (nth_error (m_triangles m) i) as [[[a b] c]|]; [|reflexivity]. cbn [option_map].
      assert (X : corners (m_vertices m) (a, b, c) <> None) by (rewrite <- F; apply nth_error_Some; exact I).
      destruct (corners (m_vertices m) (a, b, c)) as [t|] eqn:K; [|congruence].
      apply corners_parts in K as [A [B D]]. apply nth_error_nth with (d := d) in A, B, D. rewrite A, B, D. destruct t; reflexivity. }
    rewrite G. generalize (m_triangles m). clear. intros ts. induction ts as [|[[i j] k] ts IH]; cbn; [reflexivity|].
    rewrite IH. reflexivity. }
  unfold closed. rewrite E, map_map. rewrite (map_ext (fun x => flip (f x)) (fun x => f (flip x))) by (intros [a b]; reflexivity).
  rewrite <- (map_map flip f). apply Permutation_map, P.
Qed.

Lemma norm_x x : norm (Pt x 0 0) = Rabs x.
Proof. unfold norm. cbn. replace (x * x + 0 * 0 + 0 * 0) with (Rsqr x) by (unfold Rsqr; ring). apply sqrt_Rsqr_abs. Qed.
Lemma norm_y x : norm (Pt 0 x 0) = Rabs x.
Proof. unfold norm. cbn. replace (0 * 0 + x * x + 0 * 0) with (Rsqr x) by (unfold Rsqr; ring). apply sqrt_Rsqr_abs. Qed.
Lemma norm_z x : norm (Pt 0 0 x) = Rabs x.
Proof. unfold norm. cbn. replace (0 * 0 + 0 * 0 + x * x) with (Rsqr x) by (unfold Rsqr; ring). apply sqrt_Rsqr_abs. Qed.
Lemma Rabs_m1 : Rabs (-1) = 1.
Proof. rewrite Rabs_left; lra. Qed.
Lemma norm_unit_z : norm (Pt 0 0 1) = 1.
Proof. rewrite norm_z, Rabs_R1. reflexivity. Qed.

(** Each triangle of a box mesh: its area vector has the direction of the normal. *)
Lemma box_area2 lo up q : In q (box_tris lo up) ->
  let dx := px up - px lo in let dy := py up - py lo in let dz := pz up - pz lo in
  area2 (fst q) = vscale (Rabs (px (snd q)) * (dy * dz) + Rabs (py (snd q)) * (dx * dz) + Rabs (pz (snd q)) * (dx * dy)) (snd q).
Proof.
  unfold box_tris. intros H. repeat destruct H as [<- | H]; [..|destruct H];
  cbn [fst snd px py pz]; unfold area2, cross, vsub, vscale; cbn [P1 P2 P3 px py pz];
  rewrite ?Rabs_R0, ?Rabs_R1, ?Rabs_m1, ?Rabs_R1; f_equal; ring.
Qed.
Lemma box_normals lo up q : In q (box_tris lo up) ->
  snd q = Pt (-1) 0 0 \/ snd q = Pt 1 0 0 \/ snd q = Pt 0 (-1) 0 \/ snd q = Pt 0 1 0 \/ snd q = Pt 0 0 (-1) \/ snd q = Pt 0 0 1.
Proof. unfold box_tris. intros H. repeat destruct H as [<- | H]; [..|destruct H]; cbn [snd]; tauto. Qed.
Lemma box_exact lo up q : box_ok (Box lo up) -> In q (box_tris lo up) -> exact_normal q /\ norm (snd q) = 1 /\ 0 < norm (area2 (fst q)).
Proof.
  intros B I. assert (A := box_area2 lo up q I). cbv zeta in A.
  assert (X := B AX). assert (Y := B AY). assert (Z := B AZ). cbn [at_ lower upper] in X, Y, Z.
  set (dx := px up - px lo) in *. set (dy := py up - py lo) in *. set (dz := pz up - pz lo) in *.
  assert (0 < dx) by (unfold dx; lra). assert (0 < dy) by (unfold dy; lra). assert (0 < dz) by (unfold dz; lra).
  assert (0 < dy * dz) by nra. assert (0 < dx * dz) by nra. assert (0 < dx * dy) by nra.
  assert (U : norm (snd q) = 1 /\ 0 < Rabs (px (snd q)) * (dy * dz) + Rabs (py (snd q)) * (dx * dz) + Rabs (pz (snd q)) * (dx * dy)).
  { destruct (box_normals lo up q I) as [-> | [-> | [-> | [-> | [-> | ->]]]]]; cbn [px py pz];
      rewrite ?norm_x, ?norm_y, ?norm_z, ?Rabs_R0, ?Rabs_m1, ?Rabs_R1; split; lra. }
  destruct U as [U S]. unfold exact_normal. rewrite A, norm_scale, U by lra.
  split; [f_equal; ring|]. split; [reflexivity | lra].
Qed.
Lemma box_outward lo up q p : box_ok (Box lo up) -> In q (box_tris lo up) -> in_closed (Box lo up) p ->
  dot (snd q) (vsub p (P1 (fst q))) <= 0.
Proof.
  intros B I P. assert (X := P AX). assert (Y := P AY). assert (Z := P AZ). cbn [at_ lower upper] in X, Y, Z.
  unfold box_tris in I. repeat destruct I as [<- | I]; [..|destruct I];
    unfold dot, vsub; cbn [fst snd P1 px py pz]; lra.
Qed.
Lemma box_area_volume lo up : box_ok (Box lo up) ->
  let dx := px up - px lo in let dy := py up - py lo in let dz := pz up - pz lo in
  mesh_area (mesh_box lo up) = Some (2 * (dx * dy + dy * dz + dx * dz)) /\
  mesh_volume (mesh_box lo up) = Some (dx * dy * dz) /\ (forall d, mesh_volume_dir (mesh_box lo up) d = Some (dx * dy * dz)).
Proof.
  intros B dx dy dz. assert (X := B AX). assert (Y := B AY). assert (Z := B AZ). cbn [at_ lower upper] in X, Y, Z.
  assert (0 < dx) by (unfold dx; lra). assert (0 < dy) by (unfold dy; lra). assert (0 < dz) by (unfold dz; lra).
  assert (0 < dy * dz) by nra. assert (0 < dx * dz) by nra. assert (0 < dx * dy) by nra.
  assert (Vi := box_visit lo up).
  assert (C : closed (map fst (box_tris lo up))).
  { apply (manifold_closed (Pt 0 0 0) (mesh_box lo up)); [apply box_manifold | apply visit_fst, Vi]. }
  assert (E : Forall exact_normal (box_tris lo up)) by (apply Forall_forall; intros q I; apply (box_exact lo up q B I)).
  destruct (closed_volume _ _ Vi C E) as [V1 V2].
  assert (D : 1/6 * sum det (map fst (box_tris lo up)) = dx * dy * dz).
  { unfold box_tris, det, dot, cross, dx, dy, dz. cbn [map fst sum P1 P2 P3 px py pz]. field. }
  rewrite D, Rabs_pos_eq in V1, V2 by nra. split; [|split; [exact V1|]].
  - rewrite (area_visit _ _ Vi). f_equal.
    rewrite (sum_ext _ (fun q => 1/2 * (Rabs (px (snd q)) * (dy * dz) + Rabs (py (snd q)) * (dx * dz) + Rabs (pz (snd q)) * (dx * dy)))).
    + unfold box_tris. cbn [sum fst snd px py pz]. rewrite ?Rabs_R0, ?Rabs_m1, ?Rabs_R1. field.
    + intros q I. assert (A := box_area2 lo up q I). cbv zeta in A. fold dx dy dz in A.
      unfold tri_area. fold (area2 (fst q)). rewrite A.
      assert (U := proj1 (proj2 (box_exact lo up q B I))). rewrite norm_scale, U; [ring|].
      assert (P1' := Rabs_pos (px (snd q))). assert (P2' := Rabs_pos (py (snd q))). assert (P3' := Rabs_pos (pz (snd q))). nra.
  - exact V2.
Qed.
