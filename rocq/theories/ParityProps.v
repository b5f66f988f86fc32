(** Property C68: the inside test tells the points inside a closed surface from those outside, whatever directions are drawn. *)
From Coq Require Import Reals List Arith Bool ZArith Permutation Lia Lra Psatz.
From Verif Require Import Geo MappingModel TrimmedQuadModel MeshModel MeshGeoModel MeshBoxProofs StlModel SearchModel SearchProofs GeoQueryModel SatMain GeoQueryProofs RayProofs CastProofs GeoQueryProps ParitySpec ParityGeo ParityDir ParityMain ParityPath ParityCast.
Import ListNotations.
Local Open Scope R_scope.

(** *** C68 *)
(** A closed surface and a point off it: all rays that meet no edge leave through an odd number of triangles, or all through an
    even number. *)
Theorem C68_direction : forall tris p d d', closed tris -> off_surface tris p -> avoids tris p d -> avoids tris p d' ->
  (odd_crossings tris p d <-> odd_crossings tris p d').
Proof. exact same_parity. Qed.
Print Assumptions C68_direction.
(** There are such rays. *)
Theorem C68_some_ray : forall tris p, off_surface tris p -> exists d, avoids tris p d.
Proof. exact some_direction. Qed.
Print Assumptions C68_some_ray.
(** Points that are joined by a segment off the surface are on the same side of it. *)
Theorem C68_same_side : forall tris p p', closed tris -> (forall s, 0 <= s <= 1 -> off_surface tris (between p p' s)) ->
  (surrounded tris p <-> surrounded tris p').
Proof. exact same_side. Qed.
Print Assumptions C68_same_side.
(** Points out of the range of the vertices are outside. *)
Theorem C68_far : forall tris p, closed tris -> surrounded tris p -> in_range tris p.
Proof. exact not_in_range. Qed.
Print Assumptions C68_far.
(** Every successful cast gives the right answer. *)
Theorem C68_casts : forall junk tris g p d b, (Z.of_nat (length tris) <= 2 ^ 30)%Z -> tris <> [] -> make_query junk tris true = Some g -> (forall q, In q tris -> large q) ->
  closed tris -> clear_of tris p -> d <> Pt 0 0 0 -> cast_ray g (Ray p (unit_dir d)) = Cast b true -> (b = true <-> surrounded tris p).
Proof. exact cast_surrounded. Qed.
Print Assumptions C68_casts.
(** So the inside test gives the right answer, unless fewer than five of the hundred casts succeed. *)
Theorem C68_inside : forall junk tris g dirs p, (Z.of_nat (length tris) <= 2 ^ 30)%Z -> tris <> [] -> finite_mesh tris -> make_query junk tris true = Some g -> (forall q, In q tris -> large q) ->
  closed tris -> clear_of tris p -> (forall k, dirs k <> Pt 0 0 0) ->
  (is_inside g dirs p = Some true -> surrounded tris p) /\
  (is_inside g dirs p = Some false -> surrounded tris p -> (count succeeded (outcomes g p dirs 100) < 5)%nat).
Proof. exact inside_iff. Qed.
Print Assumptions C68_inside.
(** A cell that is classified as inside is inside with all its points (up to the tolerance at its faces), and a cell that is
    classified as outside is outside with all its points. *)
Theorem C68_cells : forall junk tris g dirs l u tol L x, (Z.of_nat (length tris) <= 2 ^ 30)%Z -> tris <> [] -> finite_mesh tris -> make_query junk tris true = Some g -> (forall q, In q tris -> large q) ->
  closed tris -> (forall k, dirs k <> Pt 0 0 0) -> 0 <= tol -> 0 <= L -> edges_within L tris ->
  (forall i, zerotol * (1 + 4 * L) < (at_ i u - at_ i l) / 2 - relative_tol l u tol) -> in_box l u (relative_tol l u tol) x ->
  (intersection_state g dirs l u tol = Some LInside -> off_surface tris x /\ surrounded tris x) /\
  (intersection_state g dirs l u tol = Some LOutside -> off_surface tris x /\ (surrounded tris x -> (count succeeded (outcomes g (vscale (1/2) (vadd u l)) dirs 100) < 5)%nat)).
Proof. exact cell_side_wide. Qed.
Print Assumptions C68_cells.

(** *** Examples *)
(** The edges of a tetrahedron, by the numbers of its vertices. *)
Definition four : list (nat * nat) := [(0,1); (1,2); (2,0); (3,1); (1,0); (0,3); (3,0); (0,2); (2,3); (3,2); (2,1); (1,3)]%nat.
Lemma four_closed (a b c d : pt) : closed [Tri a b c; Tri d b a; Tri d a c; Tri d c b].
Proof.
  unfold closed. set (f := fun e : nat * nat => (nth (fst e) [a; b; c; d] a, nth (snd e) [a; b; c; d] a)).
  change (flat_map tri_edges [Tri a b c; Tri d b a; Tri d a c; Tri d c b]) with (map f four).
  rewrite map_map. change (map (fun x => flip (f x)) four) with (map (fun x => f (flip x)) four). rewrite <- (map_map flip f).
  apply Permutation_map, manifold_perm; [apply nodupb_ok; reflexivity | ].
  assert (F : forallb (fun e => existsb (neqb (flip e)) four) four = true) by reflexivity.
  rewrite forallb_forall in F. intros e I. apply F in I. apply existsb_exists in I as (x & I & X). apply neqb_eq in X. rewrite X. exact I.
Qed.
(** A tetrahedron with edges of length k along the axes, a point in it and a direction. *)
Definition small_tetra (k : R) : list (tri pt) :=
  [Tri (Pt k 0 0) (Pt 0 k 0) (Pt 0 0 k); Tri (Pt 0 0 0) (Pt 0 k 0) (Pt k 0 0); Tri (Pt 0 0 0) (Pt k 0 0) (Pt 0 0 k); Tri (Pt 0 0 0) (Pt 0 0 k) (Pt 0 k 0)].
Lemma small_closed k : closed (small_tetra k).
Proof. apply four_closed. Qed.
Lemma small_hits k q t u v : 0 < k -> In q (small_tetra k) -> 0 <= t ->
  walk (Pt (k * (1/8)) (k * (1/8)) (k * (1/8))) (Pt (1/3) (2/3) (2/3)) t = plane_point q u v -> q = Tri (Pt k 0 0) (Pt 0 k 0) (Pt 0 0 k) /\ t = k * (3/8) /\ u = 3/8 /\ v = 3/8.
Proof.
  intros Hk H Ht E. apply pt_eq in E. assert (I : k * / k = 1) by (apply Rinv_r; lra). set (j := / k) in *. clearbody j.
  cbn in H. repeat destruct H as [<- | H]; try contradiction; cbn in E; destruct E as (E1 & E2 & E3).
  - split; [reflexivity | ]. 
    assert (U : (u - v) * k = 0) by lra. assert (U' : u = v) by nra. subst v. assert (T : t = k * (3/8)) by lra. subst t. assert (W : k * (u - 3/8) = 0) by lra. assert (u = 3/8) by nra. lra.
  - exfalso. nra.
  - exfalso. nra.
  - exfalso. nra.
Qed.
Lemma small_surrounded k : 0 < k -> surrounded (small_tetra k) (Pt (k * (1/8)) (k * (1/8)) (k * (1/8))).
Proof.
  intros Hk. exists (Pt (1/3) (2/3) (2/3)). split.
  - split; [intros E; injection E; lra | ]. intros q t u v Hq Ht Hr E. destruct (small_hits k q t u v Hk Hq Ht E) as (_ & _ & -> & ->). unfold on_rim in Hr. lra.
  - exists [0%nat]. split; [constructor; [intros [] | constructor] | ]. split; [ | reflexivity]. intros i. split.
    + intros [<- | []]. eexists. split; [reflexivity | ]. exists (k * (3/8)), (3/8), (3/8). split; [nra | ]. repeat (split; [lra | ]).
      unfold walk, plane_point, vadd, vscale, vsub. cbn [P1 P2 P3 px py pz]. f_equal; lra.
    + intros (q & Hq & t & u & v & Ht & _ & _ & _ & E). assert (Hin := nth_error_In _ _ Hq).
      destruct (small_hits k q t u v Hk Hin (Rlt_le _ _ Ht) E) as (-> & _).
      destruct i as [ | [ | [ | [ | i]]]]; cbn in Hq; [left; reflexivity | | | | destruct i; discriminate]; exfalso; injection Hq; lra.
Qed.
Lemma small_clear k : zerotol * 100 < k -> clear_of (small_tetra k) (Pt (k * (1/8)) (k * (1/8)) (k * (1/8))).
Proof.
  intros Hk q u v H Hu Hv Huv. pose proof zerotol_small as Zs. set (e := zerotol) in *. clearbody e.
  cbn in H. repeat destruct H as [<- | H]; try contradiction; apply far_norm; try lra; cbn [plane_point vadd vsub vscale P1 P2 P3 px py pz].
  - destruct (Rle_dec (1/3) u); [right; left; rewrite Rabs_pos_eq; nra | ].
    destruct (Rle_dec (1/3) v); [right; right; rewrite Rabs_pos_eq; nra | left; rewrite Rabs_pos_eq; nra].
  - right; right. rewrite Rabs_left1; nra.
  - right; left. rewrite Rabs_left1; nra.
  - left. rewrite Rabs_left1; nra.
Qed.
(** The tetrahedron and the point in it. *)
Example C68_example : closed tetra /\ clear_of tetra (r_origin tetra_ray) /\ off_surface tetra (r_origin tetra_ray) /\ surrounded tetra (r_origin tetra_ray) /\
  (forall q, In q tetra -> large q) /\ ~ surrounded tetra (Pt 2 0 0).
Proof.
  assert (E : r_origin tetra_ray = Pt (1 * (1/8)) (1 * (1/8)) (1 * (1/8))) by (cbn; f_equal; lra). rewrite E.
  assert (C : clear_of tetra (Pt (1 * (1/8)) (1 * (1/8)) (1 * (1/8)))) by (apply (small_clear 1); pose proof zerotol_small; lra).
  split; [apply (small_closed 1) | ]. split; [exact C | ]. split; [apply clear_off, C | ]. split; [apply (small_surrounded 1); lra | ].
  split; [exact tetra_large | ]. intros K. apply (not_in_range tetra) in K; [ | apply (small_closed 1)].
  destruct (K AX) as (_ & q & v & Hq & Hv & B). cbn in Hq. repeat destruct Hq as [<- | Hq]; try contradiction; cbn in Hv;
    repeat destruct Hv as [<- | Hv]; try contradiction; cbn in B; lra.
Qed.
(** A cell in it. *)
Example C68_cells_example : edges_within 1 tetra /\ (forall i, zerotol * (1 + 4 * 1) < (at_ i (Pt (1/5) (1/5) (1/5)) - at_ i (Pt (1/10) (1/10) (1/10))) / 2 - relative_tol (Pt (1/10) (1/10) (1/10)) (Pt (1/5) (1/5) (1/5)) (/ 1000)) /\
  in_box (Pt (1/10) (1/10) (1/10)) (Pt (1/5) (1/5) (1/5)) (relative_tol (Pt (1/10) (1/10) (1/10)) (Pt (1/5) (1/5) (1/5)) (/ 1000)) (r_origin tetra_ray).
Proof.
  assert (R : relative_tol (Pt (1/10) (1/10) (1/10)) (Pt (1/5) (1/5) (1/5)) (/ 1000) = / 1000).
  { unfold relative_tol. cbn [px py pz]. rewrite (Rmax_left (1/5 - 1/10) (1/5 - 1/10)) by lra. rewrite (Rmax_left (1/5 - 1/10) (1/5 - 1/10)) by lra. apply Rmax_right. lra. }
  rewrite R. pose proof zerotol_small. split; [ | split].
  - intros q Hq i. cbn in Hq. repeat destruct Hq as [<- | Hq]; try contradiction; split; apply Rabs_le; destruct i; cbn; lra.
  - intros i. destruct i; cbn; lra.
  - intros i. destruct i; cbn; lra.
Qed.
(** For a surface that is not closed, the parity depends on the direction. *)
Theorem C68_open_refuted : exists tris p d d', off_surface tris p /\ avoids tris p d /\ avoids tris p d' /\ odd_crossings tris p d /\ ~ odd_crossings tris p d'.
Proof.
  set (q0 := Tri (Pt 1 0 0) (Pt 0 1 0) (Pt 0 0 1)).
  exists [q0], (Pt 0 0 0), (Pt 1 1 1), (Pt (-1) 0 0). split.
  { intros q [<- | []] (u & v & w & A & B & C & D & H). specialize (H AX) as H1. specialize (H AY) as H2. specialize (H AZ) as H3. cbn in H1, H2, H3. lra. }
  split. { split; [intros E; injection E; lra | ]. intros q t u v [<- | []] Ht Hr E. apply pt_eq in E. cbn in E. unfold on_rim in Hr. lra. }
  split. { split; [intros E; injection E; lra | ]. intros q t u v [<- | []] Ht Hr E. apply pt_eq in E. cbn in E. unfold on_rim in Hr. lra. }
  split.
  - exists [0%nat]. split; [constructor; [intros [] | constructor] | ]. split; [ | reflexivity]. intros i. split.
    + intros [<- | []]. exists q0. split; [reflexivity | ]. exists (1/3), (1/3), (1/3). repeat (split; [lra | ]).
      unfold walk, plane_point, vadd, vscale, vsub. cbn [q0 P1 P2 P3 px py pz]. f_equal; lra.
    + intros (q & Hq & _). destruct i as [ | [ | i]]; cbn in Hq; try discriminate. left. reflexivity.
  - intros (ids & N & I & O). destruct ids as [ | i ids]; [discriminate | ]. destruct (proj1 (I i) (or_introl eq_refl)) as (q & Hq & t & u & v & Ht & A & B & C & E).
    apply nth_error_In in Hq. destruct Hq as [<- | []]. apply pt_eq in E. cbn in E. lra.
Qed.
Print Assumptions C68_open_refuted.
(** Triangles with an area of at most 100 ZEROTOL are skipped: points inside a closed surface of such triangles are reported
    outside, whatever the directions, though all casts succeed. *)
Definition tiny : R := / 10 ^ 7.
Theorem C68_small_refuted : forall junk g dirs, make_query junk (small_tetra tiny) true = Some g ->
  let p := Pt (tiny * (1/8)) (tiny * (1/8)) (tiny * (1/8)) in
  closed (small_tetra tiny) /\ clear_of (small_tetra tiny) p /\ surrounded (small_tetra tiny) p /\
  is_inside g dirs p = Some false /\ count succeeded (outcomes g p dirs 100) = 100%nat.
Proof.
  intros junk g dirs Eg p. assert (Tz : zerotol = tiny * tiny) by (unfold zerotol, tiny; field).
  assert (T : 0 < tiny < / 1000) by (unfold tiny; split; [apply Rinv_0_lt_compat | apply Rinv_lt_contravar]; lra).
  split; [apply small_closed | ]. split; [apply small_clear; rewrite Tz; nra | ]. split; [apply small_surrounded; lra | ].
  assert (Hl : (Z.of_nat (length (small_tetra tiny)) <= 2 ^ 30)%Z) by (cbn; lia).
  assert (Ne : small_tetra tiny <> []) by discriminate.
  assert (Sm : forall q, In q (small_tetra tiny) -> ~ large q).
  { intros q H L. unfold large, tri_area in L.
    assert (N : forall v, px v * px v + py v * py v + pz v * pz v <= (2 * (tiny * tiny)) * (2 * (tiny * tiny)) -> norm v <= 2 * (tiny * tiny)).
    { intros v Hv. unfold norm. rewrite <- (sqrt_square (2 * (tiny * tiny))) by nra. apply sqrt_le_1_alt. exact Hv. }
    rewrite Tz in L. match type of L with _ < _ * norm ?v => assert (K : norm v <= 2 * (tiny * tiny)) end; [ | nra].
    apply N. assert (P4 : 0 <= (tiny * tiny) * (tiny * tiny)) by nra. cbn in H. clear - H P4. repeat destruct H as [<- | H]; try contradiction; cbn; lra. }
  assert (Ec : forall r, cast_ray g r = Cast false true).
  { intros r. destruct (candidates_ok junk (small_tetra tiny) true g (ray_box r) (meets r) Hl Ne Eg) as (c & E & Hd & H1 & H2).
    - intros a b H (t & Ht & Hp). exists t. auto.
    - apply ray_box_complete.
    - assert (Ec : g_closed g = true) by (destruct (make_query_ok junk (small_tetra tiny) true Hl) as (g' & Eg' & _ & K & _); congruence).
      unfold cast_ray. rewrite E, Ec. assert (H3 : forall i q, In (i, q) c -> ~ large q).
      { intros i q Hi. apply Sm. apply H1 in Hi as (K & _). apply nth_error_In in K. exact K. }
      clear - H3. induction c as [ | [i q] c IH]; [reflexivity | ]. cbn [closed_loop].
      destruct (rltb _ _) eqn:L; [exfalso; apply rltb_true in L; apply (H3 i q (or_introl eq_refl) L) | apply IH; intros j q' Hj; apply (H3 j q'); right; exact Hj]. }
  assert (Oc : forall n, outcomes g p dirs n = repeat (Cast false true) n).
  { intros n. unfold outcomes. transitivity (map (fun _ => Cast false true) (seq 0 n)); [apply map_ext; intros k; apply Ec | ].
    rewrite <- (seq_length n 0) at 2. generalize (seq 0 n). intros l. induction l as [ | x l IH]; cbn; congruence. }
  split.
  - assert (Md : 1 <= maxd).
    { unfold maxd. assert (1 <= 2 ^ 1023) by (apply pow_R1_Rle; lra). assert (/ 2 ^ 52 <= 1) by (rewrite <- Rinv_1; apply Rinv_le_contravar; [lra | apply pow_R1_Rle; lra]). nra. }
    assert (Hf : finite_mesh (small_tetra tiny)).
    { intros q v i Hq Hv. cbn in Hq. repeat destruct Hq as [<- | Hq]; try contradiction; cbn in Hv;
        repeat destruct Hv as [<- | Hv]; try contradiction; destruct i; cbn [at_ px py pz]; lra. }
    assert (Hr : in_range (small_tetra tiny) p) by (apply not_in_range; [apply small_closed | apply small_surrounded; lra]).
    destruct (C52_votes junk _ true g dirs p Hl Ne Hf Eg) as (_ & H). destruct (H Hr) as (Hy & Hn).
    destruct (is_inside g dirs p) as [[ | ] | ]; [ | reflexivity | ].
    + exfalso. destruct (proj1 Hy eq_refl) as (n & _ & _ & _ & K). rewrite Oc in K. assert (C : forall m, count said_inside (repeat (Cast false true) m) = 0%nat) by (intros m; induction m; cbn; auto).
      rewrite C in K. lia.
    + exfalso. destruct (proj1 Hn eq_refl) as (n & _ & K & _). rewrite Oc in K. apply nth_error_In, repeat_spec in K. discriminate.
  - rewrite Oc. reflexivity.
Qed.
Print Assumptions C68_small_refuted.
