(** The separating axis test of a box and a triangle is exact. *)
From Coq Require Import Reals Lra Psatz List Bool.
From Verif Require Import Geo MappingModel TrimmedQuadModel MeshModel MeshGeoModel GeoQueryModel Helly SatProofs.
Import ListNotations.
Local Open Scope R_scope.

Lemma rltb_true a b : rltb a b = true <-> a < b.
Proof. unfold rltb. destruct (Rlt_dec a b); split; intros; try lra; congruence. Qed.
Lemma rltb_false a b : rltb a b = false <-> b <= a.
Proof. unfold rltb. destruct (Rlt_dec a b); split; intros; try lra; congruence. Qed.

(** Projections on an axis. *)
Definition band (r a b c : R) : Prop := some3 (fun m => m <= r) a b c /\ some3 (fun m => - r <= m) a b c.
Definition radius (e a : pt) : R := px e * Rabs (px a) + py e * Rabs (py a) + pz e * Rabs (pz a).
Definition passes (e p q w a : pt) : Prop := band (radius e a) (dot p a) (dot q a) (dot w a).

Lemma check_axis_passes e p q w a : check_axis p q w e a = true <-> passes e p q w a.
Proof.
  unfold check_axis. cbv zeta.
  replace (1 * px a + 0 * py a + 0 * pz a) with (px a) by ring. replace (0 * px a + 1 * py a + 0 * pz a) with (py a) by ring.
  replace (0 * px a + 0 * py a + 1 * pz a) with (pz a) by ring. fold (radius e a). fold (dot p a). fold (dot q a). fold (dot w a).
  rewrite negb_true_iff, rltb_false. unfold passes, band, some3.
  generalize (radius e a) (dot p a) (dot q a) (dot w a). intros r x y z.
  unfold Rmax, Rmin. repeat match goal with |- context [Rle_dec ?u ?v] => destruct (Rle_dec u v) | K : context [Rle_dec ?u ?v] |- _ => destruct (Rle_dec u v) end;
    (split; [intros H; split; lra | intros [[H | [H | H]] [H' | [H' | H']]]; lra]).
Qed.

Lemma band_ext r r' a b c a' b' c' : r = r' -> a = a' -> b = b' -> c = c' -> band r a b c -> band r' a' b' c'.
Proof. intros -> -> -> ->. auto. Qed.
Lemma band_sg s r a b c : s = 1 \/ s = -1 -> band r a b c -> band r (s * a) (s * b) (s * c).
Proof. intros [-> | ->] [H1 H2]; unfold band, some3 in *; split; lra. Qed.
Lemma passes_neg e p q w a a' : a' = vscale (-1) a -> passes e p q w a -> passes e p q w a'.
Proof.
  intros -> H. apply (band_sg (-1)) in H; [ | right; reflexivity]. unfold passes. eapply band_ext; [ | | | | exact H].
  - unfold radius, vscale. cbn [px py pz]. rewrite !Rabs_mult. replace (Rabs (-1)) with 1 by (rewrite Rabs_left; lra). ring.
  - unfold dot, vscale. cbn [px py pz]. ring.
  - unfold dot, vscale. cbn [px py pz]. ring.
  - unfold dot, vscale. cbn [px py pz]. ring.
Qed.
Lemma passes_swap e p q w a : passes e p q w a -> passes e p w q a.
Proof. unfold passes, band, some3. tauto. Qed.
Lemma passes_turn e p q w a : passes e p q w a -> passes e q w p a.
Proof. unfold passes, band, some3. tauto. Qed.

(** A point of the plane of the triangle. *)
Definition sg (b : bool) : R := if b then 1 else -1.
Lemma sg_cases b : sg b = 1 \/ sg b = -1. Proof. destruct b; cbn; auto. Qed.
Lemma sg_abs b x : Rabs (sg b * x) = Rabs x.
Proof. rewrite Rabs_mult. destruct b; cbn; [rewrite Rabs_right by lra | rewrite Rabs_left by lra]; ring. Qed.
Definition bfun (p q w : pt) (i : axis) (b : bool) : aff :=
  Aff (sg b * at_ i p) (sg b * (at_ i q - at_ i p)) (sg b * (at_ i w - at_ i p)).

Lemma unit_passes e p q w i : passes e p q w (unit_of i) -> band (at_ i e) (at_ i p) (at_ i q) (at_ i w).
Proof.
  apply band_ext; destruct i; unfold radius, dot; cbn [unit_of px py pz at_]; rewrite ?Rabs_R1, ?Rabs_R0; ring.
Qed.

Lemma edge_point e p q w i j b c : i <> j ->
  (forall k, passes e p q w (unit_of k)) ->
  (forall k, passes e p q w (cross (unit_of k) (vsub q p))) -> (forall k, passes e p q w (cross (unit_of k) (vsub w p))) ->
  exists x y, 0 <= y /\ val (bfun p q w i b) x y <= at_ i e /\ val (bfun p q w j c) x y <= at_ j e.
Proof.
  intros Hij HU HF HG.
  assert (U : forall k d, some3 (fun y => y <= at_ k e) (sg d * at_ k p) (sg d * at_ k q) (sg d * at_ k w)).
  { intros k d. apply (band_sg (sg d) _ _ _ _ (sg_cases d) (unit_passes _ _ _ _ _ (HU k))). }
  assert (F : forall v, (forall k, passes e p q w (cross (unit_of k) v)) ->
    band (at_ i e * Rabs (sg c * at_ j v) + at_ j e * Rabs (sg b * at_ i v))
      ((sg c * at_ j v) * (sg b * at_ i p) - (sg b * at_ i v) * (sg c * at_ j p))
      ((sg c * at_ j v) * (sg b * at_ i q) - (sg b * at_ i v) * (sg c * at_ j q))
      ((sg c * at_ j v) * (sg b * at_ i w) - (sg b * at_ i v) * (sg c * at_ j w))).
  { intros v H. rewrite !sg_abs.
    assert (S1 : sg b * sg c = 1 \/ sg b * sg c = -1) by (destruct b, c; cbn; lra).
    assert (S2 : - (sg b * sg c) = 1 \/ - (sg b * sg c) = -1) by (destruct b, c; cbn; lra).
    assert (A0 : Rabs (0 * pz v - 0 * py v) = 0) by (replace (0 * pz v - 0 * py v) with 0 by ring; apply Rabs_R0).
    destruct i, j; try congruence.
    - pose proof (band_sg _ _ _ _ _ S2 (H AZ)) as K. eapply band_ext; [ | | | | exact K]; unfold radius, dot, cross; cbn [unit_of px py pz at_].
      2-4: ring.
      replace (0 * pz v - 1 * py v) with (- py v) by ring. replace (1 * px v - 0 * pz v) with (px v) by ring.
      replace (0 * py v - 0 * px v) with 0 by ring. rewrite Rabs_R0, Rabs_Ropp. ring.
    - pose proof (band_sg _ _ _ _ _ S1 (H AY)) as K. eapply band_ext; [ | | | | exact K]; unfold radius, dot, cross; cbn [unit_of px py pz at_].
      2-4: ring.
      replace (1 * pz v - 0 * py v) with (pz v) by ring. replace (0 * px v - 0 * pz v) with 0 by ring.
      replace (0 * py v - 1 * px v) with (- px v) by ring. rewrite Rabs_R0, Rabs_Ropp. ring.
    - pose proof (band_sg _ _ _ _ _ S1 (H AZ)) as K. eapply band_ext; [ | | | | exact K]; unfold radius, dot, cross; cbn [unit_of px py pz at_].
      2-4: ring.
      replace (0 * pz v - 1 * py v) with (- py v) by ring. replace (1 * px v - 0 * pz v) with (px v) by ring.
      replace (0 * py v - 0 * px v) with 0 by ring. rewrite Rabs_R0, Rabs_Ropp. ring.
    - pose proof (band_sg _ _ _ _ _ S2 (H AX)) as K. eapply band_ext; [ | | | | exact K]; unfold radius, dot, cross; cbn [unit_of px py pz at_].
      2-4: ring.
      replace (0 * pz v - 0 * py v) with 0 by ring. replace (0 * px v - 1 * pz v) with (- pz v) by ring.
      replace (1 * py v - 0 * px v) with (py v) by ring. rewrite Rabs_R0, Rabs_Ropp. ring.
    - pose proof (band_sg _ _ _ _ _ S2 (H AY)) as K. eapply band_ext; [ | | | | exact K]; unfold radius, dot, cross; cbn [unit_of px py pz at_].
      2-4: ring.
      replace (1 * pz v - 0 * py v) with (pz v) by ring. replace (0 * px v - 0 * pz v) with 0 by ring.
      replace (0 * py v - 1 * px v) with (- px v) by ring. rewrite Rabs_R0, Rabs_Ropp. ring.
    - pose proof (band_sg _ _ _ _ _ S1 (H AX)) as K. eapply band_ext; [ | | | | exact K]; unfold radius, dot, cross; cbn [unit_of px py pz at_].
      2-4: ring.
      replace (0 * pz v - 0 * py v) with 0 by ring. replace (0 * px v - 1 * pz v) with (- pz v) by ring.
      replace (1 * py v - 0 * px v) with (py v) by ring. rewrite Rabs_R0, Rabs_Ropp. ring. }
  assert (V : forall k d v u, sg d * at_ k v - sg d * at_ k u = sg d * at_ k (vsub v u)) by (intros k d v u; destruct k; cbn; ring).
  destruct (edge_pair (at_ i e) (at_ j e) (sg b * at_ i p) (sg b * at_ i q) (sg b * at_ i w) (sg c * at_ j p) (sg c * at_ j q) (sg c * at_ j w)) as (x & y & Hy & H1 & H2).
  - apply U.
  - apply U.
  - cbv zeta. rewrite !V. exact (F (vsub q p) HF).
  - cbv zeta. rewrite !V. exact (F (vsub w p) HG).
  - exists x, y. split; [exact Hy | ]. unfold val, bfun. cbn [c0 c1 c2].
    split; [eapply Rle_trans; [ | exact H1] | eapply Rle_trans; [ | exact H2]]; right; ring.
Qed.

Section Main.
Variables e p q w : pt.
Hypothesis He : forall i, 0 <= at_ i e.
Hypothesis HU : forall k, passes e p q w (unit_of k).
Hypothesis HF0 : forall k, passes e p q w (cross (unit_of k) (vsub q p)).
Hypothesis HF1 : forall k, passes e p q w (cross (unit_of k) (vsub w q)).
Hypothesis HF2 : forall k, passes e p q w (cross (unit_of k) (vsub p w)).
Hypothesis HN : passes e p q w (cross (vsub q p) (vsub w q)).

Inductive con := T0 | T1 | T2 | B (i : axis) (b : bool).
Definition sat (c : con) : pset := fun s t =>
  match c with
  | T0 => 0 <= s | T1 => 0 <= t | T2 => s + t <= 1
  | B i b => val (bfun p q w i b) s t <= at_ i e
  end.
Definition is_edge (c : con) : Prop := match c with B _ _ => False | _ => True end.

Lemma sat_convex c : convex (sat c).
Proof.
  intros x y x' y' l H1 H2 Hl. destruct c; cbn in *; try nra. unfold val in *. nra.
Qed.

Lemma cross_neg k a b : cross (unit_of k) (vsub b a) = vscale (-1) (cross (unit_of k) (vsub a b)).
Proof. unfold cross, vsub, vscale. cbn [px py pz]. f_equal; ring. Qed.

(** One box constraint: a vertex. *)
Lemma vertex_sat i b : exists s t, sat T0 s t /\ sat T1 s t /\ sat T2 s t /\ sat (B i b) s t.
Proof.
  pose proof (unit_passes _ _ _ _ _ (HU i)) as K. apply (band_sg (sg b) _ _ _ _ (sg_cases b)) in K. destruct K as [K _].
  cbn [sat]. unfold val, bfun. cbn [c0 c1 c2].
  destruct K as [K | [K | K]]; [exists 0, 0 | exists 1, 0 | exists 0, 1]; repeat split; lra.
Qed.
Lemma sg_neg b : sg (negb b) = - sg b. Proof. destruct b; cbn; lra. Qed.
Lemma axis_sat i b : exists s t, sat T0 s t /\ sat T1 s t /\ sat T2 s t /\ sat (B i b) s t /\ sat (B i (negb b)) s t.
Proof.
  destruct (vertex_sat i b) as (s1 & t1 & A0 & A1 & A2 & A3). destruct (vertex_sat i (negb b)) as (s2 & t2 & B0 & B1 & B2 & B3).
  cbn [sat] in *. pose proof (He i) as E.
  assert (Vn : forall s t, val (bfun p q w i (negb b)) s t = - val (bfun p q w i b) s t).
  { intros s t. unfold val, bfun. cbn [c0 c1 c2]. rewrite sg_neg. ring. }
  rewrite Vn in B3. set (f := bfun p q w i b) in *. set (k := at_ i e) in *.
  destruct (Rle_dec (- k) (val f s1 t1)) as [H | H].
  - exists s1, t1. rewrite Vn. repeat split; lra.
  - destruct (Rle_dec (val f s2 t2) k) as [H' | H'].
    + exists s2, t2. rewrite Vn. repeat split; lra.
    + set (v1 := val f s1 t1) in *. set (v2 := val f s2 t2) in *.
      assert (D : 0 < v2 - v1) by lra. set (l := v2 / (v2 - v1)).
      assert (Hl : 0 <= l <= 1).
      { unfold l. split; [apply Rmult_le_pos; [lra | left; apply Rinv_0_lt_compat, D] | ].
        apply (Rmult_le_reg_r (v2 - v1)); [exact D | ]. unfold Rdiv. rewrite Rmult_assoc, Rinv_l by lra. lra. }
      exists (l * s1 + (1 - l) * s2), (l * t1 + (1 - l) * t2). rewrite Vn.
      assert (E0 : val f (l * s1 + (1 - l) * s2) (l * t1 + (1 - l) * t2) = 0).
      { replace (val f (l * s1 + (1 - l) * s2) (l * t1 + (1 - l) * t2)) with (l * v1 + (1 - l) * v2) by (unfold v1, v2, val; ring).
        unfold l. field. lra. }
      rewrite E0. repeat split; nra.
Qed.

(** An edge and two box constraints. *)
Lemma edge_sat c i b j d : is_edge c -> exists s t, sat c s t /\ sat (B i b) s t /\ sat (B j d) s t.
Proof.
  intros Hc. assert (Dij : {i = j} + {i <> j}) by decide equality. destruct Dij as [<- | Hij].
  - destruct (bool_dec b d) as [<- | Hbd].
    + destruct (vertex_sat i b) as (s & t & A0 & A1 & A2 & A3). exists s, t. destruct c; try contradiction; auto.
    + assert (d = negb b) by (destruct b, d; cbn; congruence). subst d.
      destruct (axis_sat i b) as (s & t & A0 & A1 & A2 & A3 & A4). exists s, t. destruct c; try contradiction; auto.
  - destruct c; try contradiction; cbn [sat].
    + destruct (edge_point e p w q i j b d Hij) as (x & y & H0 & H1 & H2).
      * intros k. apply passes_swap, HU.
      * intros k. apply passes_swap. eapply passes_neg; [apply cross_neg | apply HF2].
      * intros k. apply passes_swap, HF0.
      * exists y, x. split; [exact H0 | ]. unfold val, bfun in *. cbn [c0 c1 c2] in *. split; lra.
    + destruct (edge_point e p q w i j b d Hij HU HF0) as (x & y & H0 & H1 & H2).
      * intros k. eapply passes_neg; [apply cross_neg | apply HF2].
      * exists x, y. auto.
    + destruct (edge_point e q w p i j b d Hij) as (x & y & H0 & H1 & H2).
      * intros k. apply passes_turn, HU.
      * intros k. apply passes_turn, HF1.
      * intros k. apply passes_turn. eapply passes_neg; [apply cross_neg | apply HF0].
      * exists (1 - x - y), x. split; [lra | ]. unfold val, bfun in *. cbn [c0 c1 c2] in *. split.
        -- eapply Rle_trans; [ | exact H1]. right. ring.
        -- eapply Rle_trans; [ | exact H2]. right. ring.
Qed.

(** Three box constraints. *)
Definition comp (i j : axis) : R := at_ i (vsub q p) * at_ j (vsub w p) - at_ j (vsub q p) * at_ i (vsub w p).
Lemma det_comp i b j c : det2 (bfun p q w i b) (bfun p q w j c) = sg b * sg c * comp i j.
Proof. unfold det2, bfun, comp. cbn [c1 c2]. destruct i, j; cbn [at_ vsub px py pz]; ring. Qed.
Lemma comp_self i : comp i i = 0.
Proof. unfold comp. ring. Qed.
Lemma comp_anti i j : comp i j = - comp j i.
Proof. unfold comp. ring. Qed.
Lemma normal_bound : Rabs (comp AY AZ * px p + comp AZ AX * py p + comp AX AY * pz p) <=
  px e * Rabs (comp AY AZ) + py e * Rabs (comp AZ AX) + pz e * Rabs (comp AX AY).
Proof.
  pose proof HN as K. unfold passes in K.
  assert (Er : radius e (cross (vsub q p) (vsub w q)) = px e * Rabs (comp AY AZ) + py e * Rabs (comp AZ AX) + pz e * Rabs (comp AX AY)).
  { unfold radius. f_equal; [f_equal | ]; (f_equal; f_equal; unfold cross, comp, vsub; cbn [px py pz at_]; ring). }
  set (m := comp AY AZ * px p + comp AZ AX * py p + comp AX AY * pz p).
  assert (Ep : dot p (cross (vsub q p) (vsub w q)) = m) by (unfold m, dot, cross, comp, vsub; cbn [px py pz at_]; ring).
  assert (Eq : dot q (cross (vsub q p) (vsub w q)) = m) by (unfold m, dot, cross, comp, vsub; cbn [px py pz at_]; ring).
  assert (Ew : dot w (cross (vsub q p) (vsub w q)) = m) by (unfold m, dot, cross, comp, vsub; cbn [px py pz at_]; ring).
  rewrite Er, Ep, Eq, Ew in K. unfold band, some3 in K. apply Rabs_le. tauto.
Qed.
Lemma box_sat i b j c k d : exists s t, sat (B i b) s t /\ sat (B j c) s t /\ sat (B k d) s t.
Proof.
  cbn [sat]. apply three_any.
  - destruct (edge_sat T0 i b j c I) as (s & t & _ & H). exists s, t. exact H.
  - destruct (edge_sat T0 i b k d I) as (s & t & _ & H). exists s, t. exact H.
  - destruct (edge_sat T0 j c k d I) as (s & t & _ & H). exists s, t. exact H.
  - cbv zeta. rewrite !det_comp. unfold bfun. cbn [c0].
    replace (sg c * sg d * comp j k * (sg b * at_ i p) - sg b * sg d * comp i k * (sg c * at_ j p) + sg b * sg c * comp i j * (sg d * at_ k p))
      with (sg b * (sg c * (sg d * (comp j k * at_ i p - comp i k * at_ j p + comp i j * at_ k p)))) by ring.
    rewrite !(Rmult_assoc (sg _) (sg _)), !sg_abs.
    assert (Z : forall x, 0 <= x -> comp j k * at_ i p - comp i k * at_ j p + comp i j * at_ k p = 0 ->
       Rabs (comp j k * at_ i p - comp i k * at_ j p + comp i j * at_ k p) <= x) by (intros x Hx ->; rewrite Rabs_R0; exact Hx).
    assert (P : 0 <= at_ i e * Rabs (comp j k) + at_ j e * Rabs (comp i k) + at_ k e * Rabs (comp i j)).
    { pose proof (Rmult_le_pos _ _ (He i) (Rabs_pos (comp j k))). pose proof (Rmult_le_pos _ _ (He j) (Rabs_pos (comp i k))).
      pose proof (Rmult_le_pos _ _ (He k) (Rabs_pos (comp i j))). lra. }
    assert (Dij : {i = j} + {i <> j}) by decide equality. destruct Dij as [Eij | Hij].
    { subst j. apply Z; [exact P | ]. rewrite comp_self. ring. }
    assert (Dik : {i = k} + {i <> k}) by decide equality. destruct Dik as [Eik | Hik].
    { subst k. apply Z; [exact P | ]. rewrite comp_self, (comp_anti j i). ring. }
    assert (Djk : {j = k} + {j <> k}) by decide equality. destruct Djk as [Ejk | Hjk].
    { subst k. apply Z; [exact P | ]. rewrite comp_self. ring. }
    clear Z P. pose proof normal_bound as NB. pose proof (comp_anti AY AX) as X1. pose proof (comp_anti AZ AY) as X2. pose proof (comp_anti AX AZ) as X3.
    destruct i, j, k; try congruence; cbn [at_]; rewrite ?X1, ?X2, ?X3, ?Rabs_Ropp;
      (match goal with |- Rabs ?m <= _ =>
        first [ replace m with (comp AY AZ * px p + comp AZ AX * py p + comp AX AY * pz p) by ring
              | replace m with (- (comp AY AZ * px p + comp AZ AX * py p + comp AX AY * pz p)) by ring; rewrite Rabs_Ropp ] end; lra).
Qed.

Lemma triple c1 c2 c3 : exists s t, sat c1 s t /\ sat c2 s t /\ sat c3 s t.
Proof.
  destruct c1 as [ | | | i b].
  1-3: destruct c2 as [ | | | j c];
    [ destruct c3 as [ | | | k d]; [exists 0, 0; cbn; lra | exists 0, 0; cbn; lra | exists 0, 0; cbn; lra | destruct (vertex_sat k d) as (s & t & A0 & A1 & A2 & A3); exists s, t; auto]
    | destruct c3 as [ | | | k d]; [exists 0, 0; cbn; lra | exists 0, 0; cbn; lra | exists 0, 0; cbn; lra | destruct (vertex_sat k d) as (s & t & A0 & A1 & A2 & A3); exists s, t; auto]
    | destruct c3 as [ | | | k d]; [exists 0, 0; cbn; lra | exists 0, 0; cbn; lra | exists 0, 0; cbn; lra | destruct (vertex_sat k d) as (s & t & A0 & A1 & A2 & A3); exists s, t; auto]
    | destruct c3 as [ | | | k d]; [destruct (vertex_sat j c) as (s & t & A0 & A1 & A2 & A3); exists s, t; auto .. | apply edge_sat; exact I] ].
  destruct c2 as [ | | | j c].
  1-3: destruct c3 as [ | | | k d]; [destruct (vertex_sat i b) as (s & t & A0 & A1 & A2 & A3); exists s, t; auto .. | ].
  1-3: match goal with |- context [sat ?c _ _ /\ sat (B ?k ?d) _ _] => destruct (edge_sat c i b k d I) as (s & t & H1 & H2 & H3); exists s, t; auto end.
  destruct c3 as [ | | | k d].
  1-3: match goal with |- context [_ /\ sat ?x _ _] => destruct (edge_sat x i b j c I) as (s & t & H1 & H2 & H3); exists s, t; auto end.
  apply box_sat.
Qed.

Definition cons : list con := [T0; T1; T2; B AX true; B AX false; B AY true; B AY false; B AZ true; B AZ false].
Lemma sat_complete : exists s t, 0 <= s /\ 0 <= t /\ s + t <= 1 /\
  forall i, - at_ i e <= at_ i p + s * (at_ i q - at_ i p) + t * (at_ i w - at_ i p) <= at_ i e.
Proof.
  destruct (helly 9 (map sat cons)) as (s & t & H); [reflexivity | discriminate | | | ].
  - apply Forall_map, Forall_forall. intros c _. apply sat_convex.
  - intros X Y Z HX HY HZ. apply in_map_iff in HX, HY, HZ. destruct HX as (c1 & <- & _). destruct HY as (c2 & <- & _). destruct HZ as (c3 & <- & _).
    apply triple.
  - rewrite Forall_map, Forall_forall in H. exists s, t.
    assert (K : forall c, In c cons -> sat c s t) by (intros c Hc; apply H, Hc).
    split; [apply (K T0); cbn; auto | ]. split; [apply (K T1); cbn; auto | ]. split; [apply (K T2); cbn; auto | ].
    intros i. assert (K1 : sat (B i true) s t) by (apply K; destruct i; cbn; auto 10).
    assert (K2 : sat (B i false) s t) by (apply K; destruct i; cbn; auto 10).
    cbn [sat] in K1, K2. unfold val, bfun in *. cbn [c0 c1 c2 sg] in *. split; nra.
Qed.
End Main.
