(** Proofs about the box/triangle test and the box queries on a mesh. *)
From Coq Require Import Reals Lra Psatz List Arith Bool ZArith Lia Permutation.
From Verif Require Import Geo MappingModel TrimmedQuadModel MeshModel MeshGeoModel StlModel SearchModel SearchProofs SearchInsert SearchQuery SearchProps GeoQueryModel Helly SatProofs SatMain.
Import ListNotations.
Local Open Scope R_scope.

(** *** Specification *)
(** A point of a triangle; a point of a box that is moved inwards by tol. *)
Definition in_triangle (q : tri pt) (x : pt) : Prop :=
  exists a b c, 0 <= a /\ 0 <= b /\ 0 <= c /\ a + b + c = 1 /\
    forall i, at_ i x = a * at_ i (P1 q) + b * at_ i (P2 q) + c * at_ i (P3 q).
Definition in_box (lo up : pt) (tol : R) (x : pt) : Prop := forall i, at_ i lo + tol <= at_ i x <= at_ i up - tol.

(** *** The separating axis test *)
Lemma abs_bounds x r : Rabs x <= r -> - r <= x <= r.
Proof. unfold Rabs. destruct (Rcase_abs x); lra. Qed.
Lemma passes_of_point e p q w x a b c ax : (forall i, Rabs (at_ i x) <= at_ i e) ->
  0 <= a -> 0 <= b -> 0 <= c -> a + b + c = 1 -> (forall i, at_ i x = a * at_ i p + b * at_ i q + c * at_ i w) ->
  passes e p q w ax.
Proof.
  intros He Ha Hb Hc Hs Hx. unfold passes, band, some3.
  assert (Ed : dot x ax = a * dot p ax + b * dot q ax + c * dot w ax).
  { unfold dot. pose proof (Hx AX). pose proof (Hx AY). pose proof (Hx AZ). cbn [at_] in *. nra. }
  assert (Er : Rabs (dot x ax) <= radius e ax).
  { unfold dot, radius. pose proof (He AX) as HX. pose proof (He AY) as HY. pose proof (He AZ) as HZ. cbn [at_] in *.
    eapply Rle_trans; [apply Rabs_triang | ]. apply Rplus_le_compat; [eapply Rle_trans; [apply Rabs_triang | apply Rplus_le_compat] | ];
      rewrite Rabs_mult; (apply Rmult_le_compat_r; [apply Rabs_pos | assumption]). }
  apply abs_bounds in Er. rewrite Ed in Er. generalize dependent (radius e ax). intros r [H1 H2].
  generalize dependent (dot p ax). generalize dependent (dot q ax). generalize dependent (dot w ax). intros z y u _ H1 H2.
  assert (Ec : c = 1 - a - b) by lra. split.
  - destruct (Rle_dec u r) as [ | N1]; [auto | ]. destruct (Rle_dec y r) as [ | N2]; [auto | ]. destruct (Rle_dec z r) as [ | N3]; [auto | ].
    exfalso. assert (r < a * u + b * y + c * z) by (destruct (Rlt_le_dec 0 a); [nra | destruct (Rlt_le_dec 0 b); [nra | ]]; assert (a = 0) by lra; assert (b = 0) by lra; assert (c = 1) by lra; subst; nra). lra.
  - destruct (Rle_dec (- r) u) as [ | N1]; [auto | ]. destruct (Rle_dec (- r) y) as [ | N2]; [auto | ]. destruct (Rle_dec (- r) z) as [ | N3]; [auto | ].
    exfalso. assert (a * u + b * y + c * z < - r) by (destruct (Rlt_le_dec 0 a); [nra | destruct (Rlt_le_dec 0 b); [nra | ]]; assert (a = 0) by lra; assert (b = 0) by lra; assert (c = 1) by lra; subst; nra). lra.
Qed.

Definition extent_of (lo up : pt) (tol : R) : pt :=
  Pt ((px up - px lo) / 2 - tol) ((py up - py lo) / 2 - tol) ((pz up - pz lo) / 2 - tol).
Definition centre_of (lo up : pt) : pt := Pt (1/2 * (px lo + px up)) (1/2 * (py lo + py up)) (1/2 * (pz lo + pz up)).
Lemma centre_extent lo up tol i : at_ i (extent_of lo up tol) = (at_ i up - at_ i lo) / 2 - tol /\ at_ i (centre_of lo up) = 1/2 * (at_ i lo + at_ i up).
Proof. destruct i; split; reflexivity. Qed.
Lemma at_vsub i a b : at_ i (vsub a b) = at_ i a - at_ i b.
Proof. destruct i; reflexivity. Qed.

Lemma box_triangle_sound lo up q tol x : in_triangle q x -> in_box lo up tol x -> box_triangle lo up (P1 q) (P2 q) (P3 q) tol = true.
Proof.
  intros (a & b & c & Ha & Hb & Hc & Hs & Hx) Hb'. unfold box_triangle. fold (extent_of lo up tol). fold (centre_of lo up).
  apply forallb_forall. intros ax _. apply check_axis_passes.
  apply (passes_of_point _ _ _ _ (vsub x (centre_of lo up)) a b c); auto.
  - intros i. rewrite at_vsub. destruct (centre_extent lo up tol i) as [-> ->]. specialize (Hb' i). apply Rabs_le. lra.
  - intros i. rewrite !at_vsub. rewrite Hx. assert (c = 1 - a - b) by lra. subst c. ring.
Qed.

Lemma box_triangle_complete lo up q tol : (forall i, at_ i lo + tol <= at_ i up - tol) ->
  box_triangle lo up (P1 q) (P2 q) (P3 q) tol = true -> exists x, in_triangle q x /\ in_box lo up tol x.
Proof.
  intros Ht H. unfold box_triangle in H. fold (extent_of lo up tol) in H. fold (centre_of lo up) in H.
  set (m := centre_of lo up) in *. set (e := extent_of lo up tol) in *.
  rewrite forallb_forall in H.
  assert (K : forall a, In a (sat_axes (P1 q) (P2 q) (P3 q)) -> passes e (vsub (P1 q) m) (vsub (P2 q) m) (vsub (P3 q) m) a)
    by (intros a Ha; apply check_axis_passes, H, Ha).
  assert (Hv : forall a b, vsub (vsub a m) (vsub b m) = vsub a b) by (intros a b; unfold vsub; cbn [px py pz]; f_equal; ring).
  destruct (sat_complete e (vsub (P1 q) m) (vsub (P2 q) m) (vsub (P3 q) m)) as (s & t & H1 & H2 & H3 & H4).
  - intros i. unfold e. rewrite (proj1 (centre_extent lo up tol i)). specialize (Ht i). lra.
  - intros k. apply K. destruct k; cbn; auto 20.
  - intros k. rewrite Hv. apply K. destruct k; cbn; auto 20.
  - intros k. rewrite Hv. apply K. destruct k; cbn; auto 20.
  - intros k. rewrite Hv. apply K. destruct k; cbn; auto 20.
  - rewrite !Hv. apply K. cbn. auto 20.
  - exists (Pt ((1 - s - t) * px (P1 q) + s * px (P2 q) + t * px (P3 q)) ((1 - s - t) * py (P1 q) + s * py (P2 q) + t * py (P3 q))
               ((1 - s - t) * pz (P1 q) + s * pz (P2 q) + t * pz (P3 q))). split.
    + exists (1 - s - t), s, t. repeat (split; [lra | ]). intros i. destruct i; reflexivity.
    + intros i. specialize (H4 i). rewrite !at_vsub in H4. unfold e, m in H4. destruct (centre_extent lo up tol i) as [E1 E2]. rewrite E1, E2 in H4.
      assert (Ei : at_ i (Pt ((1 - s - t) * px (P1 q) + s * px (P2 q) + t * px (P3 q)) ((1 - s - t) * py (P1 q) + s * py (P2 q) + t * py (P3 q))
               ((1 - s - t) * pz (P1 q) + s * pz (P2 q) + t * pz (P3 q))) = (1 - s - t) * at_ i (P1 q) + s * at_ i (P2 q) + t * at_ i (P3 q)) by (destruct i; reflexivity).
      rewrite Ei. lra.
Qed.

(** *** The search tree of a mesh *)
Lemma RA_ordered : ordered RA.
Proof.
  constructor; cbn; intros *; rewrite ?rltb_true, ?rltb_false; lra.
Qed.
Lemma leq_RA a b : leq RA a b <-> a <= b.
Proof. unfold leq. cbn. apply rltb_false. Qed.

Lemma visit_ids_ok tris ids : (forall i, In i ids -> (i < length tris)%nat) ->
  exists l, visit_ids tris ids = Some l /\ map fst l = ids /\ forall i q, In (i, q) l -> nth_error tris i = Some q.
Proof.
  induction ids as [ | i ids IH]; intros H.
  - exists []. split; [reflexivity | ]. split; [reflexivity | intros ? ? []].
  - destruct IH as (l & E & M & N); [intros j J; apply H; right; exact J | ].
    cbn [visit_ids]. rewrite E. assert (Hi : (i < length tris)%nat) by (apply H; left; reflexivity).
    destruct (nth_error tris i) as [q | ] eqn:Eq; [ | apply nth_error_None in Eq; lia].
    exists ((i, q) :: l). split; [reflexivity | ]. split; [cbn; congruence | ].
    intros j x [Hj | Hj]; [injection Hj as <- <-; exact Eq | apply N, Hj].
Qed.

(** The query object of a mesh: the tree stores the box of each triangle. *)
Lemma make_query_ok junk tris closed : (Z.of_nat (length tris) <= 2 ^ 30)%Z ->
  exists g, make_query junk tris closed = Some g /\ g_tris g = tris /\ g_closed g = closed /\
    g_bounds g = fold_left (extend RA) (map (tri_box RA) (map corners tris)) no_bounds /\
    exists ps, inv RA (g_tree g) ps /\ NoDup (map fst ps) /\
      forall i b, In (i, b) ps <-> exists q, nth_error tris i = Some q /\ b = tri_box RA (corners q).
Proof.
  intros Hl. destruct (build_spec RA RA_ordered junk no_bounds (map corners tris)) as (t & E & ps & H1 & H2 & H3); [rewrite map_length; exact Hl | ].
  unfold make_query. rewrite E. eexists. split; [reflexivity | ]. cbn. split; [reflexivity | ]. split; [reflexivity | ]. split; [reflexivity | ].
  exists ps. split; [exact H1 | ]. split; [exact H2 | ]. intros i b. rewrite H3. split.
  - intros (tr & K & ->). rewrite nth_error_map in K. destruct (nth_error tris i) as [q | ]; [ | discriminate]. injection K as <-. exists q. auto.
  - intros (q & K & ->). exists (corners q). rewrite nth_error_map, K. auto.
Qed.

(** The visited triangles, for a test and a property of boxes that it recognises. *)
Lemma candidates_ok junk tris closed g (hit : rbox -> bool) (must : rbox -> Prop) :
  (Z.of_nat (length tris) <= 2 ^ 30)%Z -> tris <> [] -> make_query junk tris closed = Some g ->
  (forall a b, (forall x, point_in RA x a -> point_in RA x b) -> must a -> must b) -> (forall b, must b -> hit b = true) ->
  exists c, candidates g hit = Some c /\ NoDup (map fst c) /\ (forall i q, In (i, q) c -> nth_error tris i = Some q /\ hit (tri_box RA (corners q)) = true) /\
    (forall i q, nth_error tris i = Some q -> must (tri_box RA (corners q)) -> In (i, q) c).
Proof.
  intros Hl Hn Eg Hu Hm. destruct (make_query_ok junk tris closed Hl) as (g' & Eg' & Et & Ec & _ & ps & H1 & H2 & H3).
  assert (g' = g) by congruence. subst g'.
  assert (Hps : ps <> []).
  { destruct tris as [ | q tris]; [congruence | ]. intros ->. assert (In (0%nat, tri_box RA (corners q)) []) by (apply H3; exists q; auto). contradiction. }
  destruct (query_covers RA hit must) with (t := g_tree g) (ps := ps) as (found & missed & Eq & Hp & F1 & F2); try assumption.
  { intros a b [(V1 & V2 & V3) (W1 & W2 & W3)]. apply Hu. intros x ((P1 & P2) & (P3 & P4) & (P5 & P6)).
    repeat split; eapply (SearchProofs.le_trans RA RA_ordered); eassumption. }
  assert (Hfound : forall i b, In (i, b) found -> exists q, nth_error tris i = Some q /\ b = tri_box RA (corners q)).
  { intros i b Hin. apply H3. eapply Permutation_in; [exact Hp | apply in_or_app; left; exact Hin]. }
  destruct (visit_ids_ok tris (map fst found)) as (c & E & M & N).
  { intros i Hi. apply in_map_iff in Hi. destruct Hi as ([j b] & <- & Hi). destruct (Hfound _ _ Hi) as (q & Hq & _). apply nth_error_Some. cbn. congruence. }
  exists c. unfold candidates. rewrite Eq, Et. split; [exact E | ].
  assert (Hd : NoDup (map fst found ++ map fst missed)) by (rewrite <- map_app; eapply Permutation_NoDup; [apply Permutation_map; symmetry; exact Hp | exact H2]).
  rewrite Forall_forall in F1, F2. split; [rewrite M; apply (NoDup_app_inv _ _ Hd) | ]. split.
  - intros i q Hin. pose proof (N _ _ Hin) as Hq. split; [exact Hq | ].
    assert (Hi : In i (map fst found)) by (rewrite <- M; apply (in_map fst) in Hin; exact Hin).
    apply in_map_iff in Hi. destruct Hi as ([j b] & Ej & Hi). cbn in Ej. subst j. pose proof (F1 _ Hi) as K. cbn in K.
    destruct (Hfound _ _ Hi) as (q' & Hq' & ->). assert (q' = q) by congruence. subst q'. exact K.
  - intros i q Hq Hmu. assert (Hin : In (i, tri_box RA (corners q)) (found ++ missed)).
    { eapply Permutation_in; [symmetry; exact Hp | apply H3; exists q; auto]. }
    apply in_app_or in Hin. destruct Hin as [Hin | Hin]; [ | exfalso; exact (F2 _ Hin Hmu)].
    assert (Hi : In i (map fst c)) by (rewrite M; apply (in_map fst) in Hin; exact Hin).
    apply in_map_iff in Hi. destruct Hi as ([j q'] & Ej & Hi). cbn in Ej. subst j. pose proof (N _ _ Hi) as K. assert (q' = q) by congruence. subst q'. exact Hi.
Qed.

(** A point of a triangle is in the box of the triangle. *)
Lemma dmin_R a b : dmin RA a b = Rmin a b.
Proof. unfold dmin, Rmin. cbn. destruct (rltb b a) eqn:E; rewrite ?rltb_true, ?rltb_false in E; destruct (Rle_dec a b); lra. Qed.
Lemma dmax_R a b : dmax RA a b = Rmax a b.
Proof. unfold dmax, Rmax. cbn. destruct (rltb a b) eqn:E; rewrite ?rltb_true, ?rltb_false in E; destruct (Rle_dec a b); lra. Qed.
Lemma min3_le a b c : min3 RA a b c <= a /\ min3 RA a b c <= b /\ min3 RA a b c <= c.
Proof.
  unfold min3. rewrite !dmin_R. pose proof (Rmin_l (Rmin a b) c). pose proof (Rmin_r (Rmin a b) c).
  pose proof (Rmin_l a b). pose proof (Rmin_r a b). lra.
Qed.
Lemma max3_ge a b c : a <= max3 RA a b c /\ b <= max3 RA a b c /\ c <= max3 RA a b c.
Proof.
  unfold max3. rewrite !dmax_R. pose proof (Rmax_l (Rmax a b) c). pose proof (Rmax_r (Rmax a b) c).
  pose proof (Rmax_l a b). pose proof (Rmax_r a b). lra.
Qed.
Lemma in_triangle_box q x : in_triangle q x -> point_in RA (vec_of x) (tri_box RA (corners q)).
Proof.
  intros (a & b & c & Ha & Hb & Hc & Hs & Hx). unfold point_in. rewrite !leq_RA. cbn [tri_box corners lo up vec_of vx vy vz].
  assert (G : forall X Y Z, min3 RA X Y Z <= a * X + b * Y + c * Z <= max3 RA X Y Z).
  { intros X Y Z. destruct (min3_le X Y Z) as (M1 & M2 & M3). destruct (max3_ge X Y Z) as (N1 & N2 & N3).
    cbn [num RA] in *. set (mn := min3 RA X Y Z : R) in *. set (mx := max3 RA X Y Z : R) in *. clearbody mn mx.
    assert (c = 1 - a - b) by lra. subst c. split; nra. }
  pose proof (Hx AX) as HX. pose proof (Hx AY) as HY. pose proof (Hx AZ) as HZ. cbn [at_] in *. rewrite HX, HY, HZ.
  split; [ | split]; apply G.
Qed.

(** *** Box queries *)
Definition le_pt (l u : pt) : Prop := forall i, at_ i l <= at_ i u.
Lemma valid_primitive_le l u : valid_primitive l u = true <-> le_pt l u.
Proof.
  unfold valid_primitive. rewrite negb_true_iff, bad_bounds_valid. unfold valid, vle. cbn [lo up rbox_of vec_of vx vy vz].
  change (le RA) with (leq RA). rewrite !leq_RA. split.
  - intros (H1 & H2 & H3) i. destruct i; assumption.
  - intros H. repeat split; [apply (H AX) | apply (H AY) | apply (H AZ)].
Qed.
Lemma candidates_box junk tris closed g l u : (Z.of_nat (length tris) <= 2 ^ 30)%Z -> tris <> [] -> make_query junk tris closed = Some g -> le_pt l u ->
  exists c, candidates g (overlap RA (rbox_of l u)) = Some c /\ NoDup (map fst c) /\ (forall i q, In (i, q) c -> nth_error tris i = Some q) /\
    (forall i q x tol, nth_error tris i = Some q -> 0 <= tol -> in_triangle q x -> in_box l u tol x -> In (i, q) c).
Proof.
  intros Hl Hn Eg Hlu.
  destruct (candidates_ok junk tris closed g (overlap RA (rbox_of l u)) (fun b => exists x, point_in RA x (rbox_of l u) /\ point_in RA x b) Hl Hn Eg) as (c & E & Hd & H1 & H2).
  - intros a b H (x & X1 & X2). exists x. auto.
  - intros b (x & ((X1 & X2) & (X3 & X4) & (X5 & X6)) & ((Y1 & Y2) & (Y3 & Y4) & (Y5 & Y6))).
    unfold overlap. rewrite negb_true_iff, !orb_false_iff.
    repeat split; eapply (SearchProofs.le_trans RA RA_ordered); eassumption.
  - exists c. split; [exact E | ]. split; [exact Hd | ]. split; [intros i q Hin; apply H1, Hin | ].
    intros i q x tol Hq Ht Hx Hb. apply H2; [exact Hq | ]. exists (vec_of x). split; [ | apply in_triangle_box, Hx].
    unfold point_in. rewrite !leq_RA. cbn [rbox_of lo up vec_of vx vy vz].
    pose proof (Hb AX). pose proof (Hb AY). pose proof (Hb AZ). cbn [at_] in *. lra.
Qed.

Lemma relative_tol_pos l u tol : 0 <= tol -> 0 <= relative_tol l u tol.
Proof. intros H. unfold relative_tol. eapply Rle_trans; [exact H | apply Rmax_r]. Qed.

Lemma do_intersect_ok junk tris closed g l u tol : (Z.of_nat (length tris) <= 2 ^ 30)%Z -> tris <> [] -> make_query junk tris closed = Some g ->
  0 <= tol -> (forall i, at_ i l + relative_tol l u tol <= at_ i u - relative_tol l u tol) ->
  exists b, do_intersect g l u tol = Some b /\
    (b = true <-> exists q x, In q tris /\ in_triangle q x /\ in_box l u (relative_tol l u tol) x).
Proof.
  intros Hl Hn Eg Ht Hx. pose proof (relative_tol_pos l u tol Ht) as Hr.
  assert (Hlu : le_pt l u) by (intros i; specialize (Hx i); lra).
  destruct (candidates_box junk tris closed g l u Hl Hn Eg Hlu) as (c & E & Hd & H1 & H2).
  unfold do_intersect. rewrite (proj2 (valid_primitive_le l u) Hlu), E. eexists. split; [reflexivity | ].
  rewrite existsb_exists. split.
  - intros ([i q] & Hin & Hb). cbn [snd] in Hb. apply box_triangle_complete in Hb; [ | exact Hx]. destruct Hb as (x & X1 & X2).
    exists q, x. split; [eapply nth_error_In; apply H1, Hin | auto].
  - intros (q & x & Hq & X1 & X2). apply In_nth_error in Hq. destruct Hq as (i & Hq). exists (i, q). split; [eapply H2; eassumption | ].
    cbn [snd]. eapply box_triangle_sound; eassumption.
Qed.

Lemma intersected_ids_ok junk tris closed g l u tol : (Z.of_nat (length tris) <= 2 ^ 30)%Z -> tris <> [] -> make_query junk tris closed = Some g ->
  0 <= tol -> (forall i, at_ i l + tol <= at_ i u - tol) ->
  exists ids, intersected_ids g l u tol = Some ids /\ NoDup ids /\
    forall i, In i ids <-> exists q x, nth_error tris i = Some q /\ in_triangle q x /\ in_box l u tol x.
Proof.
  intros Hl Hn Eg Ht Hx. assert (Hlu : le_pt l u) by (intros i; specialize (Hx i); lra).
  destruct (candidates_box junk tris closed g l u Hl Hn Eg Hlu) as (c & E & Hd & H1 & H2).
  unfold intersected_ids. rewrite (proj2 (valid_primitive_le l u) Hlu), E. eexists. split; [reflexivity | ]. split.
  - clear - Hd. induction c as [ | e c IH]; cbn [List.filter map]; [constructor | ]. inversion Hd as [ | ? ? N D]; subst.
    destruct (box_triangle l u (P1 (snd e)) (P2 (snd e)) (P3 (snd e)) tol); [ | apply IH, D]. cbn [map]. constructor; [ | apply IH, D].
    intros K. apply N. apply in_map_iff in K. destruct K as (e' & Ee & K). apply filter_In in K. rewrite <- Ee. apply in_map, K.
  - intros i. rewrite in_map_iff. split.
    + intros ([j q] & <- & Hin). apply filter_In in Hin. destruct Hin as [Hin Hb]. cbn [fst snd] in *.
      apply box_triangle_complete in Hb; [ | exact Hx]. destruct Hb as (x & X1 & X2). exists q, x. split; [apply H1, Hin | auto].
    + intros (q & x & Hq & X1 & X2). exists (i, q). split; [reflexivity | ]. apply filter_In. split; [eapply H2; eassumption | ].
      cbn [snd]. eapply box_triangle_sound; eassumption.
Qed.
