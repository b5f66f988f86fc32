(** Clipping of convex polygons in the plane. *)
From Coq Require Import Reals List Arith Bool Lia Lra.
From Verif Require Import ClipModel ClipTheory.
Import ListNotations.
Local Open Scope R_scope.

(** Points of the plane. *)
Definition p2 := (R * R)%type.
Definition mix (t : R) (p q : p2) : p2 := (fst p + t * (fst q - fst p), snd p + t * (snd q - snd p)).
Definition affine (f : p2 -> R) : Prop := exists c a b, forall p, f p = c + a * fst p + b * snd p.
Lemma affine_mix f t p q : affine f -> f (mix t p q) = f p + t * (f q - f p).
Proof. intros (c & a & b & E). rewrite !E. unfold mix. cbn [fst snd]. ring. Qed.
Lemma affine_shift f s : affine f -> affine (fun p => f p + s).
Proof. intros (c & a & b & E). exists (c + s), a, b. intros p. rewrite E. ring. Qed.
Lemma affine_scale f s : affine f -> affine (fun p => s * f p).
Proof. intros (c & a & b & E). exists (s * c), (s * a), (s * b). intros p. rewrite E. ring. Qed.
Lemma mix_0 p q : mix 0 p q = p.
Proof. destruct p. unfold mix. cbn. f_equal; ring. Qed.
Lemma mix_1 p q : mix 1 p q = q.
Proof. destruct p, q. unfold mix. cbn. f_equal; ring. Qed.
Definition negf (f : p2 -> R) (p : p2) : bool := if Rlt_dec (f p) 0 then true else false.
Lemma negf_true f p : negf f p = true <-> f p < 0.
Proof. unfold negf. destruct (Rlt_dec (f p) 0); split; intros; try discriminate; try contradiction; auto. Qed.
Lemma negf_false f p : negf f p = false <-> 0 <= f p.
Proof. unfold negf. destruct (Rlt_dec (f p) 0); split; intros; try discriminate; try reflexivity; lra. Qed.

(** Convex hulls. *)
Definition convex (C : p2 -> Prop) : Prop := forall p q t, C p -> C q -> 0 <= t <= 1 -> C (mix t p q).
Definition hull (l : list p2) (x : p2) : Prop := forall C, convex C -> (forall v, In v l -> C v) -> C x.
Lemma hull_in l v : In v l -> hull l v.
Proof. intros I C _ H. exact (H v I). Qed.
Lemma hull_convex l : convex (hull l).
Proof. intros p q t Hp Hq Ht C HC H. apply HC; [exact (Hp C HC H) | exact (Hq C HC H) | exact Ht]. Qed.
Lemma hull_mono l l' x : (forall v, In v l -> hull l' v) -> hull l x -> hull l' x.
Proof. intros H Hx. exact (Hx _ (hull_convex l') H). Qed.
Lemma hull_rot l l' x : rot l l' -> hull l x -> hull l' x.
Proof. intros R. apply hull_mono. intros v I. apply hull_in, (rot_in _ _ _ R I). Qed.
Lemma half_convex f : affine f -> convex (fun p => f p < 0).
Proof. intros A p q t Hp Hq Ht. rewrite (affine_mix f t p q A). nra. Qed.
Lemma half_convex' f : affine f -> convex (fun p => 0 <= f p).
Proof. intros A p q t Hp Hq Ht. rewrite (affine_mix f t p q A). nra. Qed.
Lemma hull_split l1 l2 x : l1 <> [] -> l2 <> [] -> hull (l1 ++ l2) x -> exists u w t, hull l1 u /\ hull l2 w /\ 0 <= t <= 1 /\ x = mix t u w.
Proof.
  intros N1 N2 H. destruct l1 as [|a l1]; [congruence|]. destruct l2 as [|b l2]; [congruence|].
  apply (H (fun x => exists u w t, hull (a :: l1) u /\ hull (b :: l2) w /\ 0 <= t <= 1 /\ x = mix t u w)).
  - intros p q s (u1 & w1 & t1 & U1 & W1 & T1 & ->) (u2 & w2 & t2 & U2 & W2 & T2 & ->) S.
    set (T := (1 - s) * t1 + s * t2). assert (0 <= T <= 1) by (unfold T; split; nra).
    destruct (Req_dec T 0) as [Z|Z].
    + assert (A : (1 - s) * t1 = 0) by (unfold T in Z; nra). assert (B : s * t2 = 0) by (unfold T in Z; nra).
      exists (mix s u1 u2), w1, 0. split; [apply hull_convex; assumption|]. split; [exact W1|]. split; [lra|]. rewrite mix_0.
      unfold mix; cbn [fst snd]. f_equal.
      * transitivity (fst u1 + s * (fst u2 - fst u1) + (1 - s) * t1 * (fst w1 - fst u1) + s * t2 * (fst w2 - fst u2)); [ring|]. rewrite A, B. ring.
      * transitivity (snd u1 + s * (snd u2 - snd u1) + (1 - s) * t1 * (snd w1 - snd u1) + s * t2 * (snd w2 - snd u2)); [ring|]. rewrite A, B. ring.
    + destruct (Req_dec T 1) as [O|O].
      * assert (A : (1 - s) * (1 - t1) = 0) by (unfold T in O; nra). assert (B : s * (1 - t2) = 0) by (unfold T in O; nra).
        exists u1, (mix s w1 w2), 1. split; [exact U1|]. split; [apply hull_convex; assumption|]. split; [lra|]. rewrite mix_1.
        unfold mix; cbn [fst snd]. f_equal.
        -- transitivity (fst w1 + s * (fst w2 - fst w1) - (1 - s) * (1 - t1) * (fst w1 - fst u1) - s * (1 - t2) * (fst w2 - fst u2)); [ring|]. rewrite A, B. ring.
        -- transitivity (snd w1 + s * (snd w2 - snd w1) - (1 - s) * (1 - t1) * (snd w1 - snd u1) - s * (1 - t2) * (snd w2 - snd u2)); [ring|]. rewrite A, B. ring.
      * exists (mix (s * (1 - t2) / (1 - T)) u1 u2), (mix (s * t2 / T) w1 w2), T.
        assert (P1 : 0 < 1 - T) by lra. assert (P2 : 0 < T) by lra.
        split; [apply hull_convex; [assumption | assumption |]|].
        { split; [apply (Rmult_le_reg_r (1 - T) _ _ P1); field_simplify; nra|]. apply (Rmult_le_reg_r (1 - T) _ _ P1).
          replace (s * (1 - t2) / (1 - T) * (1 - T)) with (s * (1 - t2)) by (field; lra). unfold T. nra. }
        split; [apply hull_convex; [assumption | assumption |]|].
        { split; [apply (Rmult_le_reg_r T _ _ P2); field_simplify; nra|]. apply (Rmult_le_reg_r T _ _ P2).
          replace (s * t2 / T * T) with (s * t2) by (field; lra). unfold T. nra. }
        split; [assumption|]. unfold mix; cbn [fst snd]. f_equal; unfold T in *; field; lra.
  - intros v I. change ((a :: l1) ++ b :: l2) with (a :: l1 ++ b :: l2) in I. destruct (in_app_or (a :: l1) (b :: l2) v I) as [J|J].
    + exists v, b, 0. split; [apply hull_in, J|]. split; [apply hull_in; left; reflexivity|]. split; [lra|]. rewrite mix_0. reflexivity.
    + exists a, v, 1. split; [apply hull_in; left; reflexivity|]. split; [apply hull_in, J|]. split; [lra|]. rewrite mix_1. reflexivity.
Qed.
Lemma hull_some_neg f l u : affine f -> hull l u -> f u < 0 -> exists v, In v l /\ f v < 0.
Proof.
  intros A H U. destruct (existsb (negf f) l) eqn:E.
  - apply existsb_exists in E as (v & I & N). exists v. split; [exact I | apply negf_true, N].
  - exfalso. assert (0 <= f u); [|lra]. apply (H (fun p => 0 <= f p) (half_convex' f A)). intros v I. apply negf_false.
    destruct (negf f v) eqn:N; [|reflexivity]. exfalso. enough (existsb (negf f) l = true) by congruence. apply existsb_exists. exists v. split; assumption.
Qed.

(** A polygon is convex if every line separates its vertices into at most two arcs. *)
Definition convex_poly (l : list p2) : Prop := forall f, affine f -> (cyc (negf f) l <= 2)%nat.

(** Four changes. *)
Lemma ch_inner {V} (f : V -> bool) a l : (exists v, In v (a :: l) /\ f v = true) ->
  (diff (f a) true + diff (f (last l a)) true <= ch f a l)%nat.
Proof.
  revert a. induction l as [|b l IH]; intros a H.
  - cbn [last ch]. destruct H as (v & [<-|[]] & ->). cbn. lia.
  - rewrite last_cons. cbn [ch]. destruct (existsb f (b :: l)) eqn:E.
    + apply existsb_exists in E. specialize (IH b E). destruct (f a), (f b), (f (last l b)); cbn in *; lia.
    + assert (F : forall v, In v (b :: l) -> f v = false).
      { intros v I. destruct (f v) eqn:Fv; [|reflexivity]. exfalso. enough (existsb f (b :: l) = true) by congruence. apply existsb_exists. exists v. split; assumption. }
      destruct H as (v & [<-|I] & Fv); [|rewrite (F v I) in Fv; discriminate]. rewrite Fv, (F b (or_introl eq_refl)).
      destruct (f (last l b)); cbn; lia.
Qed.
Lemma four_changes {V} (f : V -> bool) b0 bs n0 ns :
  (exists v, In v (b0 :: bs) /\ f v = true) -> (exists v, In v (n0 :: ns) /\ f v = true) ->
  f (last bs b0) = false \/ f n0 = false -> f (last ns n0) = false \/ f b0 = false -> (4 <= cyc f ((b0 :: bs) ++ n0 :: ns))%nat.
Proof.
  intros B N E1 E2. apply ch_inner in B, N. cbn [app cyc]. change (b0 :: bs ++ n0 :: ns) with ((b0 :: bs) ++ n0 :: ns).
  rewrite ch_app, last_app, !last_cons. cbn [ch].
  destruct (f b0), (f n0), (f (last bs b0)), (f (last ns n0)); destruct E1, E2; try discriminate; cbn in *; lia.
Qed.

(** *** Clipping by a half plane *)
Section Clip.
Variables (h : p2 -> R) (eps : R).
Hypothesis h_affine : affine h.
Hypothesis eps_pos : 0 <= eps.
Definition sd2 (p : p2) : side := if Rlt_dec eps (h p) then Front else if Rlt_dec (h p) (- eps) then Behind else On.
Definition inter2 (a b : p2) : p2 := mix (h a / (h a - h b)) a b.
Definition clip2 (l : list p2) : list p2 := gclip sd2 inter2 (fun p => p) l.
Lemma behind2 p : behind sd2 p = negf (fun q => h q + eps) p.
Proof.
  unfold behind, sd2, negf. destruct (Rlt_dec eps (h p)), (Rlt_dec (h p) (- eps)), (Rlt_dec (h p + eps) 0); try reflexivity; lra.
Qed.
Lemma cross_param a b : (sd2 a = Behind /\ sd2 b = Front) \/ (sd2 a = Front /\ sd2 b = Behind) -> 0 < h a / (h a - h b) < 1 /\ h (inter2 a b) = 0 /\ h a - h b <> 0.
Proof.
  intros S. assert (D : (h a < 0 /\ 0 < h b) \/ (0 < h a /\ h b < 0)).
  { unfold sd2 in S. destruct (Rlt_dec eps (h a)), (Rlt_dec (h a) (- eps)), (Rlt_dec eps (h b)), (Rlt_dec (h b) (- eps)); destruct S as [[A B]|[A B]]; try discriminate; lra. }
  assert (N : h a - h b <> 0) by lra. split; [|split; [|exact N]].
  - destruct D as [[A B]|[A B]].
    + assert (P : 0 < h b - h a) by lra. replace (h a / (h a - h b)) with ((- h a) / (h b - h a)) by (field; lra).
      split; apply (Rmult_lt_reg_r (h b - h a) _ _ P); unfold Rdiv; rewrite Rmult_assoc, Rinv_l by lra; lra.
    + assert (P : 0 < h a - h b) by lra.
      split; apply (Rmult_lt_reg_r (h a - h b) _ _ P); unfold Rdiv; rewrite Rmult_assoc, Rinv_l by lra; lra.
  - unfold inter2. rewrite affine_mix by exact h_affine. field. exact N.
Qed.
Lemma cyc_ext {V} (f g : V -> bool) l : (forall v, f v = g v) -> cyc f l = cyc g l.
Proof.
  intros E. assert (C : forall l a, ch f a l = ch g a l) by (induction l0 as [|b m IH]; intros a; cbn [ch]; [reflexivity | rewrite IH, !E; reflexivity]).
  destruct l; [reflexivity | apply C].
Qed.
Lemma convex_arcs l : convex_poly l -> clipped sd2 inter2 (fun p => p) l (clip2 l).
Proof.
  intros C. apply gclip_clipped. rewrite (cyc_ext _ _ _ behind2). apply C, affine_shift, h_affine.
Qed.
Lemma clip_convex l : convex_poly l -> convex_poly (clip2 l).
Proof.
  intros C f A. eapply Nat.le_trans; [|exact (C f A)]. apply clip_changes; [|reflexivity].
  intros a b S E. destruct (cross_param a b S) as ((T0 & T1) & _ & _). unfold inter2. set (t := h a / (h a - h b)) in *.
  destruct (negf f a) eqn:Fa; symmetry in E.
  - apply negf_true in Fa, E. apply negf_true. rewrite (affine_mix f t a b A). nra.
  - apply negf_false in Fa, E. apply negf_false. rewrite (affine_mix f t a b A). nra.
Qed.
(** The vertex between a vertex behind the plane and one that is not. *)
Definition on_edge (a b e : p2) : Prop := exists t, 0 <= t <= 1 /\ e = mix t a b.
Lemma on_edge_sym a b e : on_edge a b e -> on_edge b a e.
Proof. intros (t & T & ->). exists (1 - t). split; [lra|]. unfold mix. cbn. f_equal; ring. Qed.
Lemma join_ok a b : behind sd2 a = true -> behind sd2 b = false -> 
  (on_edge a b (join sd2 inter2 (fun p => p) a b) /\ - eps <= h (join sd2 inter2 (fun p => p) a b) <= eps) /\
  (on_edge b a (join sd2 inter2 (fun p => p) b a) /\ - eps <= h (join sd2 inter2 (fun p => p) b a) <= eps).
Proof.
  unfold behind, join. intros A B. destruct (sd2 a) eqn:Sa; try discriminate. destruct (sd2 b) eqn:Sb; try discriminate.
  - destruct (cross_param a b (or_introl (conj Sa Sb))) as (T & Z & _). destruct (cross_param b a (or_intror (conj Sb Sa))) as (T' & Z' & _).
    split; (split; [eexists; split; [|reflexivity]; lra|]); rewrite ?Z, ?Z'; lra.
  - assert (O : - eps <= h b <= eps).
    { unfold sd2 in Sb. destruct (Rlt_dec eps (h b)); [discriminate|]. destruct (Rlt_dec (h b) (- eps)); [discriminate|]. lra. }
    split; (split; [|exact O]).
    + exists 1. split; [lra|]. rewrite mix_1. reflexivity.
    + exists 0. split; [lra|]. rewrite mix_0. reflexivity.
Qed.
Lemma behind_h a : behind sd2 a = true -> h a < - eps.
Proof. rewrite behind2. intros H. apply negf_true in H. lra. Qed.
Lemma not_behind_h a : behind sd2 a = false -> - eps <= h a.
Proof. rewrite behind2. intros H. apply negf_false in H. lra. Qed.

(** The clipped polygon is part of the polygon and at most eps in front of the plane. *)
Lemma clip_inside l v : convex_poly l -> In v (clip2 l) -> hull l v /\ h v <= eps.
Proof.
  intros C I. destruct (convex_arcs l C) as [A | N | b0 bs n0 ns r R X Y E].
  - split; [apply hull_in, I|]. specialize (A v I). apply behind_h in A. lra.
  - destruct I.
  - apply (rot_in _ _ _ E) in I. apply rot_sym in R.
    assert (B1 : In (last bs b0) (b0 :: bs)) by (rewrite <- (last_cons b0 bs b0); apply last_in; discriminate).
    assert (N1 : In (last ns n0) (n0 :: ns)) by (rewrite <- (last_cons n0 ns n0); apply last_in; discriminate).
    assert (Inl : forall w, In w (b0 :: bs) \/ In w (n0 :: ns) -> hull l w) by (intros w W; apply hull_in, (rot_in _ _ _ R), in_or_app, W).
    destruct I as [<-|I].
    + destruct (join_ok b0 (last ns n0) (X b0 (or_introl eq_refl)) (Y _ N1)) as [_ [[t [T ->]] Hh]]. split; [|lra].
      apply hull_convex; [apply Inl; right; exact N1 | apply Inl; left; left; reflexivity | exact T].
    + apply in_app_or in I as [I|[<-|[]]]; [split; [apply Inl; left; exact I | specialize (X v I); apply behind_h in X; lra]|].
      destruct (join_ok (last bs b0) n0 (X _ B1) (Y n0 (or_introl eq_refl))) as [[[t [T ->]] Hh] _]. split; [|lra].
      apply hull_convex; [apply Inl; left; exact B1 | apply Inl; right; left; reflexivity | exact T].
Qed.

(** Level points: two points with the same h differ along one direction. *)
Lemma level_line c a b p q : (forall z, h z = c + a * fst z + b * snd z) -> a * a + b * b <> 0 -> h p = h q -> exists s, p = (fst q + s * - b, snd q + s * a).
Proof.
  intros E N H. rewrite !E in H. exists ((- b * (fst p - fst q) + a * (snd p - snd q)) / (a * a + b * b)).
  destruct p as [p1 p2'], q as [q1 q2]. cbn [fst snd] in *. assert (K : a * (p1 - q1) = - b * (p2' - q2)) by lra.
  f_equal; apply (Rmult_eq_reg_r (a * a + b * b)); try exact N.
  - transitivity (q1 * (a * a + b * b) + (- b * (p1 - q1) + a * (p2' - q2)) * - b); [|field; exact N].
    transitivity (q1 * (a * a + b * b) + a * (a * (p1 - q1)) + b * b * (p1 - q1)); [ring|]. rewrite K. ring.
  - transitivity (q2 * (a * a + b * b) + (- b * (p1 - q1) + a * (p2' - q2)) * a); [|field; exact N].
    transitivity (q2 * (a * a + b * b) + a * a * (p2' - q2) - b * (- b * (p2' - q2))); [ring|]. rewrite <- K. ring.
Qed.
(** A point between e and y, or a line through it that leaves both on the same side. *)
Lemma line_through u w r e y : h u < h w -> on_edge u w r -> h e = h r -> h y = h r ->
  on_edge e y r \/ exists f, affine f /\ f u < 0 /\ f w < 0 /\ 0 < f e /\ 0 < f y.
Proof.
  intros L (tr & Tr & Er) He Hy. destruct h_affine as (c & a & b & E).
  assert (N : a * a + b * b <> 0).
  { intros Z. assert (a = 0) by nra. assert (b = 0) by nra. subst. rewrite !E in L. lra. }
  destruct (level_line c a b e r E N He) as (s1 & E1). destruct (level_line c a b y r E N Hy) as (s2 & E2).
  set (k := h w - h u). assert (K : 0 < k) by (unfold k; lra).
  assert (Kv : k = a * (fst w - fst u) + b * (snd w - snd u)) by (unfold k; rewrite !E; ring).
  assert (G : forall s d, affine (fun z => s * ((fst z - fst r) * (snd w - snd u) - (snd z - snd r) * (fst w - fst u)) - d)).
  { intros s d. exists (s * (- fst r * (snd w - snd u) + snd r * (fst w - fst u)) - d), (s * (snd w - snd u)), (- s * (fst w - fst u)). intros p. ring. }
  assert (Gu : forall s d, s * ((fst u - fst r) * (snd w - snd u) - (snd u - snd r) * (fst w - fst u)) - d = - d).
  { intros s d. rewrite Er. unfold mix. cbn [fst snd]. ring. }
  assert (Gw : forall s d, s * ((fst w - fst r) * (snd w - snd u) - (snd w - snd r) * (fst w - fst u)) - d = - d).
  { intros s d. rewrite Er. unfold mix. cbn [fst snd]. ring. }
  assert (Ge : forall s d, s * ((fst e - fst r) * (snd w - snd u) - (snd e - snd r) * (fst w - fst u)) - d = - s * s1 * k - d).
  { intros s d. rewrite E1, Kv. cbn [fst snd]. ring. }
  assert (Gy : forall s d, s * ((fst y - fst r) * (snd w - snd u) - (snd y - snd r) * (fst w - fst u)) - d = - s * s2 * k - d).
  { intros s d. rewrite E2, Kv. cbn [fst snd]. ring. }
  destruct (Rlt_dec 0 s1) as [P1|P1]; destruct (Rlt_dec 0 s2) as [P2|P2].
  - right. set (d := Rmin s1 s2 * k / 2). assert (M : 0 < Rmin s1 s2) by (apply Rmin_glb_lt; assumption).
    assert (M1 := Rmin_l s1 s2). assert (M2 := Rmin_r s1 s2). assert (D : 0 < d) by (unfold d; nra).
    exists (fun z => -1 * ((fst z - fst r) * (snd w - snd u) - (snd z - snd r) * (fst w - fst u)) - d). split; [apply G|].
    rewrite Gu, Gw, Ge, Gy. unfold d in *. split; [lra|]. split; [lra|]. split; nra.
  - left. exists (s1 / (s1 - s2)). split.
    + assert (P : 0 < s1 - s2) by lra. split; apply (Rmult_le_reg_r (s1 - s2) _ _ P); unfold Rdiv; rewrite Rmult_assoc, Rinv_l by lra; lra.
    + rewrite E1, E2. unfold mix. cbn [fst snd]. destruct r as [r1 r2]. cbn [fst snd]. f_equal; field; lra.
  - left. destruct (Req_dec s1 s2) as [Q|Q]; [lra|]. exists (s1 / (s1 - s2)). split.
    + assert (P : 0 < s2 - s1) by lra. replace (s1 / (s1 - s2)) with (- s1 / (s2 - s1)) by (field; lra).
      split; apply (Rmult_le_reg_r (s2 - s1) _ _ P); unfold Rdiv; rewrite Rmult_assoc, Rinv_l by lra; lra.
    + rewrite E1, E2. unfold mix. cbn [fst snd]. destruct r as [r1 r2]. cbn [fst snd]. f_equal; field; lra.
  - destruct (Req_dec s1 0) as [Z1|Z1]; [left; exists 0; split; [lra|]; rewrite mix_0, E1, Z1; destruct r; cbn; f_equal; ring|].
    destruct (Req_dec s2 0) as [Z2|Z2]; [left; exists 1; split; [lra|]; rewrite mix_1, E2, Z2; destruct r; cbn; f_equal; ring|].
    right. set (d := Rmin (- s1) (- s2) * k / 2). assert (M : 0 < Rmin (- s1) (- s2)) by (apply Rmin_glb_lt; lra).
    assert (M1 := Rmin_l (- s1) (- s2)). assert (M2 := Rmin_r (- s1) (- s2)). assert (D : 0 < d) by (unfold d; nra).
    exists (fun z => 1 * ((fst z - fst r) * (snd w - snd u) - (snd z - snd r) * (fst w - fst u)) - d). split; [apply G|].
    rewrite Gu, Gw, Ge, Gy. unfold d in *. split; [lra|]. split; [lra|]. split; nra.
Qed.
(** The point of the edge at the level -eps. *)
Lemma level_point a e : h a < - eps -> - eps <= h e -> exists z, on_edge a e z /\ h z = - eps.
Proof.
  intros A B. exists (mix ((- eps - h a) / (h e - h a)) a e). assert (P : 0 < h e - h a) by lra. split.
  - eexists. split; [|reflexivity]. split; apply (Rmult_le_reg_r (h e - h a) _ _ P); unfold Rdiv; rewrite Rmult_assoc, Rinv_l by lra; lra.
  - rewrite (affine_mix h _ _ _ h_affine). field. lra.
Qed.
Lemma on_edge_trans a b e z : on_edge a b e -> on_edge a e z -> on_edge a b z.
Proof.
  intros (t & T & ->) (s & S & ->). exists (s * t). split; [nra|]. unfold mix. cbn. f_equal; ring.
Qed.
Lemma edge_neg f a b z : affine f -> on_edge a b z -> 0 < f z -> negf f a = false \/ negf f b = false.
Proof.
  intros A (t & T & ->) P. rewrite (affine_mix f t a b A) in P. destruct (negf f a) eqn:Fa; [|left; reflexivity].
  destruct (negf f b) eqn:Fb; [|right; reflexivity]. apply negf_true in Fa, Fb. exfalso. nra.
Qed.
(** Nothing that is behind the plane is lost. *)
Lemma clip_complete l x : convex_poly l -> hull l x -> h x < - eps -> hull (clip2 l) x.
Proof.
  intros C Hx Bx. destruct (convex_arcs l C) as [A | N | b0 bs n0 ns r R X Y E].
  - exact Hx.
  - exfalso. assert (0 <= h x + eps); [|lra]. apply (Hx (fun p => 0 <= h p + eps)); [apply half_convex', affine_shift, h_affine|].
    intros v I. apply N, not_behind_h in I. lra.
  - apply (hull_rot _ _ _ (rot_sym _ _ E)).
    assert (B1 : In (last bs b0) (b0 :: bs)) by (rewrite <- (last_cons b0 bs b0); apply last_in; discriminate).
    assert (N1 : In (last ns n0) (n0 :: ns)) by (rewrite <- (last_cons n0 ns n0); apply last_in; discriminate).
    destruct (join_ok b0 (last ns n0) (X b0 (or_introl eq_refl)) (Y _ N1)) as [_ [Oy Ly]].
    destruct (join_ok (last bs b0) n0 (X _ B1) (Y n0 (or_introl eq_refl))) as [[Oe Le] _].
    set (y := join sd2 inter2 (fun p => p) (last ns n0) b0) in *. set (e := join sd2 inter2 (fun p => p) (last bs b0) n0) in *.
    set (o := y :: (b0 :: bs) ++ [e]). assert (Ho : forall v, In v o -> hull o v) by (intros v; apply hull_in).
    assert (Ib : forall v, In v (b0 :: bs) -> In v o) by (intros v I; right; apply in_or_app; left; exact I).
    assert (Ie : In e o) by (right; apply in_or_app; right; left; reflexivity). assert (Iy : In y o) by (left; reflexivity).
    apply (hull_rot _ _ _ R) in Hx. destruct (hull_split (b0 :: bs) (n0 :: ns) x ltac:(discriminate) ltac:(discriminate) Hx) as (u & w & t & Hu & Hw & T & ->).
    assert (Lu : h u < - eps).
    { assert (h u + eps < 0); [|lra]. apply (Hu (fun p => h p + eps < 0)); [apply half_convex, affine_shift, h_affine|].
      intros v I. apply X, behind_h in I. lra. }
    assert (Lw : - eps <= h w).
    { assert (0 <= h w + eps); [|lra]. apply (Hw (fun p => 0 <= h p + eps)); [apply half_convex', affine_shift, h_affine|].
      intros v I. apply Y, not_behind_h in I. lra. }
    assert (Ou : hull o u) by (apply (hull_mono (b0 :: bs)); [intros v I; apply Ho, Ib, I | exact Hu]).
    destruct (level_point u w Lu Lw) as (z & Oz & Lz).
    destruct (level_point (last bs b0) e (behind_h _ (X _ B1)) (proj1 Le)) as (e' & Oe' & Le').
    destruct (level_point b0 y (behind_h _ (X b0 (or_introl eq_refl))) (proj1 Ly)) as (y' & Oy' & Ly').
    assert (He' : hull o e') by (destruct Oe' as (s & S & ->); apply hull_convex; [apply Ho, Ib, B1 | apply Ho, Ie | exact S]).
    assert (Hy' : hull o y') by (destruct Oy' as (s & S & ->); apply hull_convex; [apply Ho, Ib; left; reflexivity | apply Ho, Iy | exact S]).
    assert (Hz : hull o z).
    { destruct (line_through u w z e' y' ltac:(lra) Oz ltac:(lra) ltac:(lra)) as [(s & S & ->) | (f & A & Fu & Fw & Fe & Fy)]; [apply hull_convex; assumption|].
      exfalso. specialize (C f A). rewrite (cyc_rot _ _ _ R) in C.
      destruct (hull_some_neg f _ u A Hu Fu) as (vb & Ivb & Fvb). destruct (hull_some_neg f _ w A Hw Fw) as (vn & Ivn & Fvn).
      assert (4 <= cyc (negf f) ((b0 :: bs) ++ n0 :: ns))%nat; [|lia].
      apply four_changes.
      - exists vb. split; [exact Ivb | apply negf_true, Fvb].
      - exists vn. split; [exact Ivn | apply negf_true, Fvn].
      - apply (edge_neg f _ _ e' A); [exact (on_edge_trans _ _ _ _ Oe Oe') | exact Fe].
      - apply or_comm. apply (edge_neg f _ _ y' A); [exact (on_edge_trans _ _ _ _ (on_edge_sym _ _ _ Oy) Oy') | exact Fy]. }
    (* x is between u and z *)
    destruct Oz as (tz & Tz & Ez). assert (Hlt : t < tz).
    { rewrite (affine_mix h t u w h_affine) in Bx. rewrite Ez, (affine_mix h tz u w h_affine) in Lz. nra. }
    replace (mix t u w) with (mix (t / tz) u z).
    + apply hull_convex; [exact Ou | exact Hz |]. split; [apply (Rmult_le_reg_r tz); [lra|]; unfold Rdiv; rewrite Rmult_assoc, Rinv_l by lra; lra|].
      apply (Rmult_le_reg_r tz); [lra|]. unfold Rdiv. rewrite Rmult_assoc, Rinv_l by lra. lra.
    + rewrite Ez. unfold mix. cbn [fst snd]. f_equal; field; lra.
Qed.
End Clip.
