(** Proofs about the geometry of meshes. *)
From Coq Require Import Reals List Arith Lia Lra Permutation.
From Verif Require Import Geo MappingModel TrimmedQuadModel MeshModel MeshProofs MeshGeoModel.
Import ListNotations.
Local Open Scope R_scope.

(** *** Building a mesh step by step *)
Section Build.
Context {V : Type}.
Lemma visit_add_triangle (m : mesh V) l t n p : length (m_normals m) = length (m_triangles m) ->
  visit_n m = Some l -> corners (m_vertices m) t = Some p -> visit_n (add_triangle m t n) = Some (l ++ [(p, n)]).
Proof.
  intros L Vi C. apply visit_seq in Vi as [Ll F]. unfold visit_n, num_triangles in *. cbn [add_triangle m_triangles].
  apply visit_seq. rewrite !app_length. cbn [length]. split; [lia|]. intros i I.
  unfold triangle_n, triangle. cbn [add_triangle m_vertices m_triangles m_normals].
  destruct (lt_dec i (length (m_triangles m))) as [Lt|Ge].
  - rewrite !nth_error_app1 by lia. rewrite F by lia. reflexivity.
  - assert (i = length (m_triangles m)) as -> by lia. rewrite !nth_error_app2 by lia. rewrite Ll, L, Nat.sub_diag. cbn.
    rewrite C. reflexivity.
Qed.
Lemma visit_more_vertices vs e ts ns (l : list (tri V * V)) :
  visit_n (Mesh vs ts ns) = Some l -> visit_n (Mesh (vs ++ e) ts ns) = Some l.
Proof.
  intros Vi. apply visit_seq in Vi as [Ll F]. unfold visit_n, num_triangles in *. cbn [m_triangles] in *.
  apply visit_seq. split; [exact Ll|]. intros i I. rewrite F by exact I. specialize (F i I). symmetry in F.
  assert (N : triangle_n (Mesh vs ts ns) i <> None) by (rewrite F; apply nth_error_Some; lia).
  unfold triangle_n, triangle in *. cbn [m_vertices m_triangles m_normals] in *.
  destruct (nth_error ts i) as [t|]; [|congruence].
  rewrite corners_app; [reflexivity|]. apply corners_ok. destruct (corners vs t); congruence.
Qed.
End Build.

(** *** Splitting a triangle *)
(** The midpoint of two points. *)
Definition mid (a b : pt) : pt := vscale (1/2) (vadd a b).
Lemma mid_sym a b : mid a b = mid b a.
Proof. unfold mid, vscale, vadd. cbn [px py pz]. f_equal; f_equal; ring. Qed.

(** The four pieces of a triangle. *)
Definition quarters (t : tri pt) : list (tri pt) :=
  let e1 := mid (P1 t) (P2 t) in
  let e2 := mid (P2 t) (P3 t) in
  let e3 := mid (P3 t) (P1 t) in
  [Tri (P1 t) e1 e3; Tri e1 (P2 t) e2; Tri e2 (P3 t) e3; Tri e1 e2 e3].
Definition pieces (thr : R) (q : tri pt * pt) : list (tri pt * pt) :=
  if Rlt_dec thr (tri_area (fst q)) then map (fun t => (t, snd q)) (quarters (fst q)) else [q].

Definition cache_ok (old vs : list pt) (c : cache) : Prop :=
  forall k id, lookup k c = Some id -> exists a b,
    nth_error old (fst k) = Some a /\ nth_error old (snd k) = Some b /\ nth_error vs id = Some (mid a b).

Lemma cache_more old vs e c : cache_ok old vs c -> cache_ok old (vs ++ e) c.
Proof.
  intros H k id L. destruct (H k id L) as [a [b [A [B C]]]]. exists a, b. split; [exact A|]. split; [exact B|].
  rewrite nth_error_app1; [exact C|]. apply nth_error_Some. congruence.
Qed.

Lemma midpoint_ok old m c i j a b : cache_ok old (m_vertices m) c ->
  nth_error old i = Some a -> nth_error old j = Some b -> exists e c' id,
  midpoint_id old (m, c) i j = Some (Mesh (m_vertices m ++ e) (m_triangles m) (m_normals m), c', id) /\
  cache_ok old (m_vertices m ++ e) c' /\ nth_error (m_vertices m ++ e) id = Some (mid a b).
Proof.
  intros H A B. unfold midpoint_id. set (k := if (j <? i)%nat then (j, i) else (i, j)).
  assert (K : exists x y, nth_error old (fst k) = Some x /\ nth_error old (snd k) = Some y /\ mid x y = mid a b).
  { unfold k. destruct (j <? i)%nat; cbn [fst snd]; [exists b, a | exists a, b]; repeat split; auto. apply mid_sym. }
  destruct K as [x [y [X [Y XY]]]]. destruct (lookup k c) as [id|] eqn:L.
  - destruct (H k id L) as [x' [y' [X' [Y' C]]]]. exists [], c, id. rewrite app_nil_r.
    split; [destruct m; reflexivity|]. split; [exact H|]. rewrite C. congruence.
  - rewrite X, Y. cbn [add_vertex]. eexists [_], _, _. split; [reflexivity|]. split.
    + intros k' id' E. cbn [lookup] in E.
      destruct ((fst k' =? fst k) && (snd k' =? snd k))%nat%bool eqn:Q.
      * apply andb_prop in Q as [Q1 Q2]. apply Nat.eqb_eq in Q1, Q2. injection E as <-. exists x, y. rewrite Q1, Q2.
        split; [exact X|]. split; [exact Y|]. rewrite nth_error_app2, Nat.sub_diag by lia. reflexivity.
      * revert E. apply cache_more, H.
    + rewrite nth_error_app2, Nat.sub_diag by lia. cbn. change (vscale (1/2) (vadd x y)) with (mid x y). congruence.
Qed.

Lemma corners_parts {V} (vs : list V) i j k t : corners vs (i, j, k) = Some t <->
  nth_error vs i = Some (P1 t) /\ nth_error vs j = Some (P2 t) /\ nth_error vs k = Some (P3 t).
Proof.
  unfold corners. destruct (nth_error vs i) as [a|], (nth_error vs j) as [b|], (nth_error vs k) as [c|];
    split; intros H; try discriminate; try (destruct H as (H1 & H2 & H3); discriminate).
  - injection H as <-. auto.
  - destruct H as [H1 [H2 H3]]. injection H1 as ->. injection H2 as ->. injection H3 as ->. destruct t; reflexivity.
Qed.

(** The state after the pieces of some triangles have been added. *)
Definition pass_inv (old : mesh pt) (m : mesh pt) (c : cache) (l : list (tri pt * pt)) : Prop :=
  (exists e, m_vertices m = m_vertices old ++ e) /\ length (m_normals m) = length (m_triangles m) /\
  visit_n m = Some l /\ cache_ok (m_vertices old) (m_vertices m) c.

Lemma add_inv old m c l t n p : pass_inv old m c l -> corners (m_vertices m) t = Some p ->
  pass_inv old (add_triangle m t n) c (l ++ [(p, n)]).
Proof.
  intros [E [L [Vi C]]] P. split; [exact E|]. split; [cbn; rewrite !app_length; cbn; lia|]. split; [|exact C].
  apply visit_add_triangle; assumption.
Qed.
Lemma split_one_ok thr old m c d l tid t n : pass_inv old m c l ->
  triangle_n old tid = Some (t, n) -> exists m' c',
  split_one thr old (m, c, d) tid = Some (m', c', if Rlt_dec thr (tri_area t) then true else d) /\
  pass_inv old m' c' (l ++ pieces thr (t, n)).
Proof.
  intros I T. unfold triangle_n, triangle in T. unfold split_one, triangle.
  destruct (nth_error (m_triangles old) tid) as [[[i j] k]|]; [|discriminate].
  destruct (corners (m_vertices old) (i, j, k)) as [p|] eqn:C; [|discriminate].
  destruct (nth_error (m_normals old) tid) as [x|]; [|discriminate]. injection T as -> ->.
  apply corners_parts in C as [A1 [A2 A3]]. unfold pieces. cbn [fst snd].
  destruct I as [[e E] [L [Vi CO]]]. destruct (Rlt_dec thr (tri_area t)).
  - destruct (midpoint_ok _ m c i j _ _ CO A1 A2) as [x1 [c1 [e1 [M1 [CO1 N1]]]]]. rewrite M1.
    set (m1 := Mesh (m_vertices m ++ x1) (m_triangles m) (m_normals m)) in *. change (m_vertices m ++ x1) with (m_vertices m1) in CO1, N1.
    destruct (midpoint_ok _ m1 c1 j k _ _ CO1 A2 A3) as [x2 [c2 [e2 [M2 [CO2 N2]]]]]. rewrite M2.
    set (m2 := Mesh (m_vertices m1 ++ x2) (m_triangles m1) (m_normals m1)) in *. change (m_vertices m1 ++ x2) with (m_vertices m2) in CO2, N2.
    destruct (midpoint_ok _ m2 c2 k i _ _ CO2 A3 A1) as [x3 [c3 [e3 [M3 [CO3 N3]]]]]. rewrite M3.
    set (m3 := Mesh (m_vertices m2 ++ x3) (m_triangles m2) (m_normals m2)) in *. change (m_vertices m2 ++ x3) with (m_vertices m3) in CO3, N3.
    assert (I3 : pass_inv old m3 c3 l).
    { split; [|split; [exact L | split; [|exact CO3]]].
      - exists (e ++ x1 ++ x2 ++ x3). unfold m3, m2, m1. cbn [m_vertices]. rewrite E, <- !app_assoc. reflexivity.
      - unfold m3. cbn [m_vertices m_triangles m_normals]. apply visit_more_vertices.
        unfold m2. cbn [m_vertices m_triangles m_normals]. apply visit_more_vertices.
        unfold m1. cbn [m_vertices m_triangles m_normals]. apply visit_more_vertices. destruct m; exact Vi. }
    assert (up : forall (u w : list pt) q z, nth_error u q = Some z -> nth_error (u ++ w) q = Some z).
    { intros u w q z Q. rewrite nth_error_app1; [exact Q|]. apply nth_error_Some. congruence. }
    assert (O : forall q z, nth_error (m_vertices old) q = Some z -> nth_error (m_vertices m3) q = Some z).
    { intros q z Q. destruct (proj1 I3) as [w W]. rewrite W. apply up, Q. }
    assert (N2' : nth_error (m_vertices m3) e2 = Some (mid (P2 t) (P3 t))) by (apply up, N2).
    assert (N1' : nth_error (m_vertices m3) e1 = Some (mid (P1 t) (P2 t))) by (apply up, up, N1).
    exists (add_triangle (add_triangle (add_triangle (add_triangle m3 (i, e1, e3) n) (e1, j, e2) n) (e2, k, e3) n) (e1, e2, e3) n), c3.
    split; [reflexivity|]. cbn [quarters map].
    match goal with |- pass_inv _ _ _ (l ++ [?a; ?b; ?q; ?z]) =>
      replace (l ++ [a; b; q; z]) with ((((l ++ [a]) ++ [b]) ++ [q]) ++ [z]) by (rewrite <- !app_assoc; reflexivity) end.
    repeat apply add_inv; try exact I3; apply corners_parts; cbn [P1 P2 P3 add_triangle m_vertices]; auto.
  - exists (add_triangle m (i, j, k) n), c. split; [reflexivity|]. apply add_inv; [repeat split; eauto|].
    rewrite E. rewrite corners_app; apply corners_parts || (apply corners_ok); auto.
    intros N. assert (C : corners (m_vertices old) (i, j, k) = Some t) by (apply corners_parts; auto). congruence.
Qed.

Lemma fold_split thr old ql : forall ids m c d l, pass_inv old m c l -> visit_list (triangle_n old) ids = Some ql ->
  exists m' c' d', fold_opt (split_one thr old) ids (m, c, d) = Some (m', c', d') /\
  pass_inv old m' c' (l ++ flat_map (pieces thr) ql) /\
  (d' = true <-> d = true \/ Exists (fun q => thr < tri_area (fst q)) ql).
Proof.
  induction ql as [|[t n] ql IH]; intros ids m c d l I Vi.
  - destruct ids as [|x ids]; [|cbn in Vi; destruct (triangle_n old x); [destruct (visit_list (triangle_n old) ids)|]; discriminate].
    exists m, c, d. cbn. rewrite app_nil_r. split; [reflexivity|]. split; [exact I|]. split; [auto|].
    intros [H|H]; [exact H | inversion H].
  - destruct ids as [|x ids]; [discriminate|]. cbn [visit_list] in Vi.
    destruct (triangle_n old x) as [q|] eqn:T; [|discriminate].
    destruct (visit_list (triangle_n old) ids) as [ql'|] eqn:R; [|discriminate]. cbn in Vi. injection Vi as -> ->.
    destruct (split_one_ok thr old m c d l x t n I T) as [m1 [c1 [S1 I1]]]. cbn [fold_opt]. rewrite S1.
    destruct (IH ids m1 c1 (if Rlt_dec thr (tri_area t) then true else d) _ I1 R) as [m' [c' [d' [F [I' D]]]]].
    exists m', c', d'. split; [exact F|]. split; [cbn [flat_map]; rewrite app_assoc; exact I'|].
    rewrite D, Exists_cons. cbn [fst]. destruct (Rlt_dec thr (tri_area t)); tauto.
Qed.

Lemma old_inv m : pass_inv m (fold_left (fun r v => fst (add_vertex r v)) (m_vertices m) empty_mesh) [] [].
Proof.
  rewrite add_vertices. cbn. split; [exists []; cbn; rewrite app_nil_r; reflexivity|]. repeat split.
  intros k id H. discriminate.
Qed.

(** *** Areas *)
Lemma norm_nonneg v : 0 <= norm v. Proof. apply sqrt_pos. Qed.
Lemma norm_scale s v : 0 <= s -> norm (vscale s v) = s * norm v.
Proof.
  intros S. unfold norm, vscale. cbn [px py pz].
  replace (s * px v * (s * px v) + s * py v * (s * py v) + s * pz v * (s * pz v)) with ((s * s) * (px v * px v + py v * py v + pz v * pz v)) by ring.
  rewrite sqrt_mult_alt by nra. rewrite sqrt_square by exact S. reflexivity.
Qed.
(** Twice the area vector. *)
Definition area2 (t : tri pt) : pt := cross (vsub (P2 t) (P1 t)) (vsub (P3 t) (P1 t)).
Lemma quarter_cross t s : In s (quarters t) -> area2 s = vscale (1/4) (area2 t).
Proof.
  unfold quarters, area2, mid, cross, vsub, vscale, vadd. intros [<- | [<- | [<- | [<- | []]]]]; cbn [P1 P2 P3 px py pz];
    f_equal; field.
Qed.
Lemma quarter_area t s : In s (quarters t) -> tri_area s = 1/4 * tri_area t.
Proof.
  intros I. unfold tri_area. fold (area2 s) (area2 t). rewrite (quarter_cross t s I), norm_scale by lra. ring.
Qed.
Lemma area_nonneg t : 0 <= tri_area t.
Proof. unfold tri_area. assert (H := norm_nonneg (cross (vsub (P2 t) (P1 t)) (vsub (P3 t) (P1 t)))). lra. Qed.

(** Sums over lists. *)
Fixpoint sum {A} (f : A -> R) (l : list A) : R := match l with [] => 0 | a :: l => f a + sum f l end.
Lemma fold_sum {A} (f : A -> R) l a : fold_left (fun acc x => acc + f x) l a = a + sum f l.
Proof. revert a. induction l as [|x l IH]; intros a; cbn [fold_left sum]; [ring|]. rewrite IH. ring. Qed.
Lemma sum_app {A} (f : A -> R) l l' : sum f (l ++ l') = sum f l + sum f l'.
Proof. induction l as [|x l IH]; cbn [app sum]; [ring|]. rewrite IH. ring. Qed.
Lemma sum_map {A B} (g : A -> B) (f : B -> R) l : sum f (map g l) = sum (fun a => f (g a)) l.
Proof. induction l as [|x l IH]; cbn [map sum]; [reflexivity|]. rewrite IH. reflexivity. Qed.
Lemma sum_ext {A} (f g : A -> R) l : (forall a, In a l -> f a = g a) -> sum f l = sum g l.
Proof. induction l as [|x l IH]; intros H; cbn [sum]; [reflexivity|]. rewrite (H x (or_introl eq_refl)). rewrite IH; [reflexivity|]. intros a I. apply H. right. exact I. Qed.
Lemma sum_flat {A} (f : A -> R) g l : (forall a, In a l -> sum f (g a) = f a) -> sum f (flat_map g l) = sum f l.
Proof.
  induction l as [|x l IH]; intros H; cbn [flat_map]; [reflexivity|]. rewrite sum_app, IH by (intros a I; apply H; right; exact I).
  rewrite (H x (or_introl eq_refl)). reflexivity.
Qed.
Lemma sum_perm {A} (f : A -> R) l l' : Permutation l l' -> sum f l = sum f l'.
Proof. induction 1; cbn [sum]; lra. Qed.

(** A quantity that is kept when a triangle is split. *)
Definition additive (f : tri pt * pt -> R) : Prop := forall t n, sum (fun s => f (s, n)) (quarters t) = f (t, n).
Lemma additive_area : additive (fun q => tri_area (fst q)).
Proof.
  intros t n. cbn [fst]. rewrite (sum_ext _ (fun _ => 1/4 * tri_area t)) by (intros s I; apply quarter_area, I).
  unfold quarters. cbn [sum]. lra.
Qed.
Lemma additive_moment (h : pt -> pt -> R) :
  (forall n a b, h n (vadd a b) = h n a + h n b) -> (forall n s a, h n (vscale s a) = s * h n a) ->
  additive (fun q => h (snd q) (tri_center (fst q)) * tri_area (fst q)).
Proof.
  intros HA HS t n. cbn [fst snd].
  rewrite (sum_ext _ (fun s => (1/4 * tri_area t) * h n (tri_center s))) by (intros s I; rewrite (quarter_area t s I); ring).
  assert (C : forall s, tri_center s = vscale (1/3) (vadd (vadd (P1 s) (P2 s)) (P3 s))) by reflexivity.
  unfold quarters. cbn [sum]. rewrite !C. cbn [P1 P2 P3]. unfold mid. rewrite !HS, !HA, !HS, !HA. field.
Qed.
Lemma additive_flux : additive tri_flux.
Proof.
  apply (additive_moment dot).
  - intros n a b. unfold dot, vadd. cbn [px py pz]. ring.
  - intros n s a. unfold dot, vscale. cbn [px py pz]. ring.
Qed.
Lemma additive_dir d : additive (fun q => at_ d (snd q) * at_ d (tri_center (fst q)) * tri_area (fst q)).
Proof.
  apply (additive_moment (fun n c => at_ d n * at_ d c)).
  - intros n a b. destruct d; cbn; ring.
  - intros n s a. destruct d; cbn; ring.
Qed.
Lemma pieces_sum f thr l : additive f -> sum f (flat_map (pieces thr) l) = sum f l.
Proof.
  intros A. apply sum_flat. intros [t n] _. unfold pieces. cbn [fst snd]. destruct (Rlt_dec thr (tri_area t)).
  - rewrite sum_map. apply A.
  - cbn [sum]. ring.
Qed.

Lemma max_area_spec l a : 0 <= a -> let m := fold_left (fun acc t => Rmax acc (tri_area t)) l a in
  a <= m /\ (forall t, In t l -> tri_area t <= m) /\ (m = a \/ exists t, In t l /\ tri_area t = m).
Proof.
  revert a. induction l as [|x l IH]; intros a A; cbn [fold_left].
  - split; [lra|]. split; [intros t []|]. left. reflexivity.
  - assert (A2 : 0 <= Rmax a (tri_area x)) by (apply Rle_trans with a; [exact A | apply Rmax_l]).
    destruct (IH _ A2) as [H1 [H2 H3]]. assert (M1 := Rmax_l a (tri_area x)). assert (M2 := Rmax_r a (tri_area x)).
    split; [lra|]. split.
    + intros t [<-|I]; [lra | apply H2, I].
    + destruct H3 as [H3 | [t [I E]]].
      * rewrite H3. unfold Rmax. destruct (Rle_dec a (tri_area x)); [right; exists x; split; [left; reflexivity | reflexivity] | left; reflexivity].
      * right. exists t. split; [right; exact I | exact E].
Qed.
Lemma zerotol_pos : 0 < zerotol.
Proof. unfold zerotol. apply Rinv_0_lt_compat. apply pow_lt. lra. Qed.

(** One pass. *)
Lemma pass_ok m l : well_formed m -> visit_n m = Some l ->
  (max_area (map fst l) <= zerotol /\ refine_pass m = Some (m, false)) \/
  (zerotol < max_area (map fst l) /\ exists m', refine_pass m = Some (m', true) /\ well_formed m' /\
     (exists e, m_vertices m' = m_vertices m ++ e) /\
     visit_n m' = Some (flat_map (pieces (9/10 * max_area (map fst l))) l) /\
     Exists (fun q => 9/10 * max_area (map fst l) < tri_area (fst q)) l).
Proof.
  intros W Vi. unfold refine_pass. rewrite (visit_fst m l Vi). cbv zeta.
  destruct (Rle_dec (max_area (map fst l)) zerotol) as [Le|Gt]; [left; auto|right]. split; [lra|].
  set (a := max_area (map fst l)) in *.
  destruct (fold_split (9/10 * a) m l (seq 0 (num_triangles m)) _ [] false [] (old_inv m) Vi) as [m' [c' [d' [F [I D]]]]].
  match goal with |- context [fold_opt ?f ?l ?s] => replace (fold_opt f l s) with (Some (m', c', d')) by (symmetry; exact F) end.
  cbn [app] in I. assert (X : Exists (fun q => 9/10 * a < tri_area (fst q)) l).
  { assert (Z := zerotol_pos). destruct (max_area_spec (map fst l) 0 (Rle_refl 0)) as [_ [_ [E | [t [In E]]]]]; fold (max_area (map fst l)) a in E.
    - lra.
    - apply in_map_iff in In as [q [<- Q]]. apply Exists_exists. exists q. split; [exact Q|]. lra. }
  assert (d' = true) as -> by (apply D; right; exact X).
  exists m'. split; [reflexivity|]. destruct I as [E [L [V' C]]]. split; [|auto].
  split; [exact L|]. apply Forall_forall. intros t In. apply In_nth_error in In as [i In].
  apply corners_ok. assert (Li : (i < num_triangles m')%nat) by (apply nth_error_Some; congruence).
  apply visit_seq in V' as [Lv Fv]. specialize (Fv i Li). unfold triangle_n, triangle in Fv. rewrite In in Fv.
  destruct (corners (m_vertices m') t); [discriminate|]. apply nth_error_None in Fv. lia.
Qed.

Lemma pieces_length thr l : (length l <= length (flat_map (pieces thr) l) <= 4 * length l)%nat /\
  (Exists (fun q => thr < tri_area (fst q)) l -> (length l + 3 <= length (flat_map (pieces thr) l))%nat).
Proof.
  induction l as [|q l IH]; cbn [flat_map length].
  - split; [lia|]. intros H. inversion H.
  - rewrite app_length. unfold pieces at 1 3 5. destruct (Rlt_dec thr (tri_area (fst q))) as [Lt|Ge]; cbn [map quarters length].
    + split; [lia|]. intros _. lia.
    + split; [lia|]. intros H. apply Exists_cons in H as [H|H]; [contradiction|]. apply IH in H. lia.
Qed.

(** Parts of a triangle: corners in the triangle, same orientation. *)
Definition in_triangle (t : tri pt) (p : pt) : Prop := exists a b c, 0 <= a /\ 0 <= b /\ 0 <= c /\ a + b + c = 1 /\
  p = vadd (vadd (vscale a (P1 t)) (vscale b (P2 t))) (vscale c (P3 t)).
Definition part_of (s t : tri pt) : Prop :=
  in_triangle t (P1 s) /\ in_triangle t (P2 s) /\ in_triangle t (P3 s) /\ exists f, 0 < f <= 1 /\ area2 s = vscale f (area2 t).
Lemma vscale_1 v : vscale 1 v = v.
Proof. destruct v. unfold vscale. cbn. f_equal; ring. Qed.
Lemma pt_split a b c x y z : a = x -> b = y -> c = z -> Pt a b c = Pt x y z.
Proof. congruence. Qed.
Ltac hull a b c := exists a, b, c; split; [lra|]; split; [lra|]; split; [lra|]; split; [lra|];
  apply pt_eq; intros []; unfold mid, vadd, vscale; cbn [at_ px py pz]; field.
Lemma part_refl t : part_of t t.
Proof.
  split; [hull 1 0 0|]. split; [hull 0 1 0|]. split; [hull 0 0 1|]. exists 1. split; [lra|]. rewrite vscale_1. reflexivity.
Qed.
Lemma hull_trans s t p : in_triangle t (P1 s) -> in_triangle t (P2 s) -> in_triangle t (P3 s) -> in_triangle s p -> in_triangle t p.
Proof.
  intros (a1 & b1 & c1 & A1 & B1 & C1 & S1 & E1) (a2 & b2 & c2 & A2 & B2 & C2 & S2 & E2) (a3 & b3 & c3 & A3 & B3 & C3 & S3 & E3)
    (a & b & c & A & B & C & S & E).
  exists (a * a1 + b * a2 + c * a3), (a * b1 + b * b2 + c * b3), (a * c1 + b * c2 + c * c3).
  split; [nra|]. split; [nra|]. split; [nra|]. split.
  - replace (a * a1 + b * a2 + c * a3 + (a * b1 + b * b2 + c * b3) + (a * c1 + b * c2 + c * c3))
      with (a * (a1 + b1 + c1) + b * (a2 + b2 + c2) + c * (a3 + b3 + c3)) by ring. rewrite S1, S2, S3. lra.
  - rewrite E, E1, E2, E3. unfold vadd, vscale. cbn [px py pz]. f_equal; ring.
Qed.
Lemma part_trans r s t : part_of r s -> part_of s t -> part_of r t.
Proof.
  intros (A1 & A2 & A3 & f & F & Ef) (B1 & B2 & B3 & g & G & Eg).
  split; [apply (hull_trans s); assumption|]. split; [apply (hull_trans s); assumption|]. split; [apply (hull_trans s); assumption|].
  exists (f * g). split; [nra|]. rewrite Ef, Eg. unfold vscale. cbn [px py pz]. f_equal; ring.
Qed.
Lemma quarter_part t s : In s (quarters t) -> part_of s t.
Proof.
  intros I. assert (Q := quarter_cross t s I). unfold part_of. split; [|split; [|split; [|exists (1/4); split; [lra | exact Q]]]].
  all: destruct I as [<- | [<- | [<- | [<- | []]]]]; cbn [P1 P2 P3];
    first [hull 1 0 0 | hull 0 1 0 | hull 0 0 1 | hull (1/2) (1/2) 0 | hull 0 (1/2) (1/2) | hull (1/2) 0 (1/2)].
Qed.
Lemma pieces_part thr l q : In q (flat_map (pieces thr) l) -> exists q0, In q0 l /\ part_of (fst q) (fst q0) /\ snd q = snd q0.
Proof.
  intros H. apply in_flat_map in H as [q0 [I H]]. exists q0. split; [exact I|]. unfold pieces in H.
  destruct (Rlt_dec thr (tri_area (fst q0))).
  - apply in_map_iff in H as [s [<- S]]. cbn [fst snd]. split; [apply quarter_part, S | reflexivity].
  - destruct H as [<-|[]]. split; [apply part_refl | reflexivity].
Qed.

(** The whole loop. *)
Definition refined_from (l l' : list (tri pt * pt)) : Prop :=
  (forall f, additive f -> sum f l' = sum f l) /\
  (forall q, In q l' -> exists q0, In q0 l /\ part_of (fst q) (fst q0) /\ snd q = snd q0).
Lemma refined_refl l : refined_from l l.
Proof. split; [reflexivity|]. intros q I. exists q. split; [exact I|]. split; [apply part_refl | reflexivity]. Qed.
Lemma max_area_sum l : sum tri_area l <= INR (length l) * max_area l.
Proof.
  destruct (max_area_spec l 0 (Rle_refl 0)) as [_ [H _]]. fold (max_area l) in H. revert H. generalize (max_area l) as a. intros a.
  induction l as [|t l IH]; intros H; cbn [sum length].
  - cbn. lra.
  - rewrite S_INR. assert (Ht := H t (or_introl eq_refl)). assert (Hl := IH (fun s I => H s (or_intror I))). lra.
Qed.
Lemma loop_ok : forall fuel m min l, (min < num_triangles m + fuel)%nat -> well_formed m -> visit_n m = Some l -> exists m' l',
  refine_loop fuel m min = Ok m' /\ well_formed m' /\ visit_n m' = Some l' /\ refined_from l l' /\
  (exists e, m_vertices m' = m_vertices m ++ e) /\
  (num_triangles m <= num_triangles m' <= Nat.max (num_triangles m) (4 * (min - 1)))%nat /\
  ((min <= num_triangles m')%nat \/ max_area (map fst l') <= zerotol /\ (num_triangles m' < min)%nat).
Proof.
  induction fuel as [|fuel IH]; intros m min l Fu W Vi; cbn [refine_loop].
  - destruct (Nat.ltb_spec (num_triangles m) min); [lia|]. exists m, l. split; [reflexivity|]. split; [exact W|]. split; [exact Vi|].
    split; [apply refined_refl|].
    split; [exists []; rewrite app_nil_r; reflexivity|]. split; [lia | left; lia].
  - destruct (Nat.ltb_spec (num_triangles m) min) as [Lt|Ge].
    + destruct (pass_ok m l W Vi) as [[A P] | [A [m1 [P [W1 [[e1 E1] [V1 X]]]]]]]; rewrite P.
      * exists m, l. split; [reflexivity|]. split; [exact W|]. split; [exact Vi|].
        split; [apply refined_refl|].
        split; [exists []; rewrite app_nil_r; reflexivity|]. split; [lia | right; split; [exact A | exact Lt]].
      * assert (Ll : length l = num_triangles m) by apply (proj1 (visit_seq _ _ _) Vi).
        assert (L1 := proj1 (proj1 (visit_seq _ _ _) V1)).
        destruct (pieces_length (9/10 * max_area (map fst l)) l) as [PL PX]. specialize (PX X).
        destruct (IH m1 min _ ltac:(lia) W1 V1) as [m' [l' [E [W' [V' [[S' Q'] [[e2 E2] [N' D']]]]]]]].
        exists m', l'. split; [exact E|]. split; [exact W'|]. split; [exact V'|]. split; [split|].
        -- intros f Af. rewrite S' by exact Af. apply pieces_sum, Af.
        -- intros q I. destruct (Q' q I) as [q1 [I1 [P1' N1]]]. destruct (pieces_part _ _ _ I1) as [q0 [I0 [P0 N0]]].
           exists q0. split; [exact I0|]. split; [exact (part_trans _ _ _ P1' P0) | congruence].
        -- split; [exists (e1 ++ e2); rewrite E2, E1, app_assoc; reflexivity|]. split; [lia | exact D'].
    + exists m, l. split; [reflexivity|]. split; [exact W|]. split; [exact Vi|].
      split; [apply refined_refl|].
      split; [exists []; rewrite app_nil_r; reflexivity|]. split; [lia | left; lia].
Qed.
Lemma area_visit m l : visit_n m = Some l -> mesh_area m = Some (sum (fun q => tri_area (fst q)) l).
Proof. intros Vi. unfold mesh_area. rewrite (visit_fst m l Vi). cbn. rewrite fold_sum, sum_map, Rplus_0_l. reflexivity. Qed.
Lemma volume_visit m l : visit_n m = Some l -> mesh_volume m = Some (Rabs (sum tri_flux l / 3)).
Proof. intros Vi. unfold mesh_volume. rewrite Vi. cbn. rewrite fold_sum, Rplus_0_l. reflexivity. Qed.
Lemma volume_dir_visit m l d : visit_n m = Some l ->
  mesh_volume_dir m d = Some (Rabs (sum (fun q => at_ d (snd q) * at_ d (tri_center (fst q)) * tri_area (fst q)) l)).
Proof.
  intros Vi. unfold mesh_volume_dir. rewrite Vi. cbn.
  rewrite (fold_sum (fun q => at_ d (snd q) * at_ d (tri_center (fst q)) * tri_area (fst q))), Rplus_0_l. reflexivity.
Qed.
Lemma refine_ok m min : well_formed m -> exists m',
  refine m min = Ok m' /\ well_formed m' /\ (exists e, m_vertices m' = m_vertices m ++ e) /\
  mesh_area m' = mesh_area m /\ mesh_volume m' = mesh_volume m /\ (forall d, mesh_volume_dir m' d = mesh_volume_dir m d) /\
  (exists l l', visit_n m = Some l /\ visit_n m' = Some l' /\
     forall q, In q l' -> exists q0, In q0 l /\ part_of (fst q) (fst q0) /\ snd q = snd q0) /\
  (num_triangles m <= num_triangles m' <= Nat.max (num_triangles m) (4 * (min - 1)))%nat /\
  (forall a, mesh_area m = Some a -> INR min * zerotol <= a -> (0 < a) -> (min <= num_triangles m')%nat).
Proof.
  intros W. destruct (visit_n_wf m W) as [l Vi].
  destruct (loop_ok (S min) m min l ltac:(lia) W Vi) as [m' [l' [E [W' [V' [[S' Q'] [E' [N' D']]]]]]]].
  exists m'. split; [exact E|]. split; [exact W'|]. split; [exact E'|].
  split; [rewrite (area_visit m' l' V'), (area_visit m l Vi); f_equal; apply S', additive_area|].
  split; [rewrite (volume_visit m' l' V'), (volume_visit m l Vi), (S' tri_flux additive_flux); reflexivity|].
  split; [intros d; rewrite (volume_dir_visit m' l' d V'), (volume_dir_visit m l d Vi), (S' _ (additive_dir d)); reflexivity|].
  split; [exists l, l'; auto|]. split; [exact N'|].
  intros a A G P. destruct D' as [D|[D D2]]; [exact D|exfalso]. rewrite (area_visit m l Vi) in A. injection A as <-.
  rewrite <- (S' _ additive_area) in G, P. assert (M := max_area_sum (map fst l')). rewrite sum_map, map_length in M.
  assert (Ll : length l' = num_triangles m') by apply (proj1 (visit_seq _ _ _) V').
  assert (Z := zerotol_pos). rewrite Ll in M.
  assert (M2 : INR (num_triangles m') * max_area (map fst l') <= INR (num_triangles m') * zerotol)
    by (apply Rmult_le_compat_l; [apply pos_INR | exact D]).
  assert (M3 : INR (num_triangles m') < INR min) by (apply lt_INR; exact D2). nra.
Qed.
