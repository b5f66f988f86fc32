(** Orientation and area of clipped convex polygons in the plane. *)
From Coq Require Import Reals List Arith Bool Lia Lra.
From Verif Require Import ClipModel ClipTheory ClipPlane.
Import ListNotations.
Local Open Scope R_scope.

Definition cr (p q : p2) : R := fst p * snd q - snd p * fst q.
(** Twice the signed area of a triangle. *)
Definition orient (u v w : p2) : R := cr u v + cr v w + cr w u.
(** Twice the signed area of a polygon. *)
Fixpoint sh (a : p2) (l : list p2) : R := match l with [] => 0 | b :: l => cr a b + sh b l end.
Definition area_of (l : list p2) : R := match l with [] => 0 | x :: _ => sh (last l x) l end.
(** All triples in order are positively oriented. *)
Definition oriented (l : list p2) : Prop := forall i j k u v w, (i <= j)%nat -> (j <= k)%nat ->
  nth_error l i = Some u -> nth_error l j = Some v -> nth_error l k = Some w -> 0 <= orient u v w.

Lemma orient_cyc u v w : orient u v w = orient v w u.
Proof. unfold orient. ring. Qed.
Lemma orient_dup u v : orient u u v = 0 /\ orient u v v = 0 /\ orient u v u = 0.
Proof. unfold orient, cr. repeat split; ring. Qed.
Lemma orient_mix1 t u u' v w : orient (mix t u u') v w = (1 - t) * orient u v w + t * orient u' v w.
Proof. unfold orient, cr, mix. cbn [fst snd]. ring. Qed.
Lemma orient_mix3 t u v w w' : orient u v (mix t w w') = (1 - t) * orient u v w + t * orient u v w'.
Proof. unfold orient, cr, mix. cbn [fst snd]. ring. Qed.
Lemma orient_affine u v : affine (orient u v).
Proof. exists (cr u v), (snd u - snd v), (fst v - fst u). intros p. unfold orient, cr. ring. Qed.

Lemma sh_app a x y : sh a (x ++ y) = sh a x + sh (last x a) y.
Proof. revert a. induction x as [|b x IH]; intros a; cbn [app sh]; [cbn; ring|]. rewrite IH, last_cons. ring. Qed.
Lemma area_rot l l' : rot l l' -> area_of l = area_of l'.
Proof.
  intros (x & y & -> & ->). destruct x as [|a x]; [rewrite app_nil_r; reflexivity|]. destruct y as [|b y]; [rewrite app_nil_r; reflexivity|].
  cbn [area_of app]. change (a :: x ++ b :: y) with ((a :: x) ++ b :: y). change (b :: y ++ a :: x) with ((b :: y) ++ a :: x).
  rewrite !sh_app, !last_app, !last_cons. ring.
Qed.
(** The triangles from any point to the edges have the area of the polygon. *)
Fixpoint fan (z a : p2) (l : list p2) : R := match l with [] => 0 | b :: l => orient a b z + fan z b l end.
Lemma fan_sh z a l : fan z a l = sh a l + cr (last l a) z + cr z a.
Proof.
  revert a. induction l as [|b l IH]; intros a; cbn [fan sh]; [cbn [last]; unfold cr; ring|]. rewrite IH, last_cons. unfold orient, cr. ring.
Qed.
Lemma fan_area z a l : fan z a l + orient (last l a) a z = area_of (a :: l).
Proof. rewrite fan_sh. cbn [area_of]. rewrite last_cons. cbn [sh]. unfold orient, cr. ring. Qed.

Lemma oriented_step x l : oriented (x :: l) -> oriented (l ++ [x]).
Proof.
  intros O i j k u v w Hi Hj Eu Ev Ew.
  assert (G : forall n p, nth_error (l ++ [x]) n = Some p -> (n = length l /\ p = x) \/ nth_error (x :: l) (S n) = Some p).
  { intros n p E. destruct (lt_dec n (length l)) as [L|L].
    - right. rewrite nth_error_app1 in E by exact L. exact E.
    - left. rewrite nth_error_app2 in E by lia. destruct (n - length l)%nat as [|m] eqn:D; [|destruct m; discriminate].
      cbn in E. injection E as ->. split; [lia | reflexivity]. }
  assert (L : forall n p, nth_error (x :: l) (S n) = Some p -> (n < length l)%nat) by (intros n p E; cbn in E; apply nth_error_Some; congruence).
  destruct (G i u Eu) as [[I ->]|U]; destruct (G j v Ev) as [[J ->]|W]; destruct (G k w Ew) as [[K ->]|Z];
    try (apply L in U; lia); try (apply L in W; lia); try (apply L in Z; lia).
  - destruct (orient_dup x x) as [-> _]. lra.
  - destruct (orient_dup u x) as [_ [-> _]]. lra.
  - rewrite orient_cyc, orient_cyc. apply (O 0%nat (S i) (S j)); try lia; try assumption. reflexivity.
  - apply (O (S i) (S j) (S k)); try lia; assumption.
Qed.
Lemma oriented_rot l l' : rot l l' -> oriented l -> oriented l'.
Proof. apply rot_ind. exact oriented_step. Qed.

(** Positions in a list. *)
Lemma nth_last {A} (a : A) l : nth_error (a :: l) (length l) = Some (last l a).
Proof. revert a. induction l as [|b l IH]; intros a; [reflexivity|]. rewrite last_cons. exact (IH b). Qed.
(** Cutting an oriented polygon along a chord gives two oriented polygons. *)
Lemma oriented_part b0 bs n0 ns y e : oriented ((b0 :: bs) ++ n0 :: ns) -> on_edge (last ns n0) b0 y -> on_edge (last bs b0) n0 e ->
  oriented (y :: (b0 :: bs) ++ [e]).
Proof.
  intros O (ty & Ty & Ey) (te & Te & Ee).
  set (m := length (b0 :: bs)). set (q := length (n0 :: ns)).
  assert (Lb : forall i v, nth_error (b0 :: bs) i = Some v -> (i < m)%nat) by (intros i v H; apply nth_error_Some; congruence).
  assert (Nb : forall i v, nth_error (b0 :: bs) i = Some v -> nth_error ((b0 :: bs) ++ n0 :: ns) i = Some v).
  { intros i v H. rewrite nth_error_app1 by exact (Lb i v H). exact H. }
  assert (Nn0 : nth_error ((b0 :: bs) ++ n0 :: ns) m = Some n0) by (rewrite nth_error_app2 by (unfold m; lia); replace (m - length (b0 :: bs))%nat with 0%nat by (unfold m; lia); reflexivity).
  assert (Nn1 : nth_error ((b0 :: bs) ++ n0 :: ns) (m + length ns) = Some (last ns n0)).
  { rewrite nth_error_app2 by (unfold m; lia). replace (m + length ns - length (b0 :: bs))%nat with (length ns) by (unfold m; lia). apply nth_last. }
  assert (Nb1 : nth_error ((b0 :: bs) ++ n0 :: ns) (length bs) = Some (last bs b0)) by (apply Nb, nth_last).
  assert (Nb0 : nth_error ((b0 :: bs) ++ n0 :: ns) 0 = Some b0) by reflexivity.
  assert (Lm : m = S (length bs)) by reflexivity.
  (* y in front *)
  assert (Yy : forall v w, 0 <= orient b0 v w -> 0 <= orient (last ns n0) v w -> 0 <= orient y v w).
  { intros v w A B. rewrite Ey, orient_mix1. nra. }
  assert (Ye : forall v w, 0 <= orient v w (last bs b0) -> 0 <= orient v w n0 -> 0 <= orient v w e).
  { intros v w A B. rewrite Ee, orient_mix3. nra. }
  assert (Cl : forall i p, nth_error (y :: (b0 :: bs) ++ [e]) i = Some p ->
    (i = 0%nat /\ p = y) \/ (exists i', i = S i' /\ nth_error (b0 :: bs) i' = Some p) \/ (i = S m /\ p = e)).
  { intros [|i] p H; [left; cbn in H; injection H as ->; split; reflexivity|]. right. cbn [nth_error] in H.
    destruct (lt_dec i m) as [L|L].
    - left. exists i. split; [reflexivity|]. rewrite nth_error_app1 in H by exact L. exact H.
    - right. rewrite nth_error_app2 in H by (unfold m in L; lia). destruct (i - length (b0 :: bs))%nat as [|d] eqn:D; [|destruct d; discriminate].
      cbn in H. injection H as ->. unfold m in *. split; [lia | reflexivity]. }
  intros i j k u v w Hij Hjk Eu Ev Ew.
  destruct (Cl i u Eu) as [[I ->]|[(i' & I & Bi)|[I ->]]]; destruct (Cl j v Ev) as [[J ->]|[(j' & J & Bj)|[J ->]]];
    destruct (Cl k w Ew) as [[K ->]|[(k' & K & Bk)|[K ->]]]; subst; try lia;
    try (destruct (orient_dup y y) as [-> _]; lra);
    try (match goal with |- 0 <= orient ?a ?a ?b => destruct (orient_dup a b) as [-> _]; lra end);
    try (match goal with |- 0 <= orient ?a ?b ?b => destruct (orient_dup a b) as [_ [-> _]]; lra end);
    repeat match goal with H : nth_error (b0 :: bs) ?i = Some ?v |- _ => pose proof (Nb i v H); pose proof (Lb i v H); clear H end;
    try (exfalso; lia).
  - (* y, b, b *) apply Yy; [apply (O 0%nat j' k'); try assumption; lia|]. rewrite orient_cyc. apply (O j' k' (m + length ns)%nat); try assumption; lia.
  - (* y, b, e *) apply Ye; apply Yy.
    + apply (O 0%nat j' (length bs)); try assumption; lia.
    + rewrite orient_cyc. apply (O j' (length bs) (m + length ns)%nat); try assumption; lia.
    + apply (O 0%nat j' m); try assumption; lia.
    + rewrite orient_cyc. apply (O j' m (m + length ns)%nat); try assumption; lia.
  - (* b, b, b *) apply (O i' j' k'); try assumption; lia.
  - (* b, b, e *) apply Ye; [apply (O i' j' (length bs)); try assumption; lia | apply (O i' j' m); try assumption; lia].
Qed.
(** The areas of the two parts add up. *)
Lemma cr_edge a b e : on_edge a b e -> cr a e + cr e b = cr a b.
Proof. intros (t & _ & ->). unfold cr, mix. cbn [fst snd]. ring. Qed.
Lemma area_parts b0 bs n0 ns y e : on_edge (last ns n0) b0 y -> on_edge (last bs b0) n0 e ->
  area_of ((b0 :: bs) ++ n0 :: ns) = area_of (y :: (b0 :: bs) ++ [e]) + area_of (e :: (n0 :: ns) ++ [y]).
Proof.
  intros Oy Oe. apply cr_edge in Oy, Oe. cbn [area_of app]. change (b0 :: bs ++ n0 :: ns) with ((b0 :: bs) ++ n0 :: ns).
  change (y :: b0 :: bs ++ [e]) with ((y :: b0 :: bs) ++ [e]). change (e :: n0 :: ns ++ [y]) with ((e :: n0 :: ns) ++ [y]).
  rewrite !sh_app, !last_app, !last_cons. cbn [sh last]. assert (cr e y = - cr y e) by (unfold cr; ring). lra.
Qed.
Lemma area_nonneg2 l : oriented l -> 0 <= area_of l.
Proof.
  destruct l as [|a l]; intros O; cbn [area_of]; [lra|]. change (0 <= area_of (a :: l)). rewrite <- (fan_area a a l).
  destruct (orient_dup a (last l a)) as (_ & _ & D). assert (orient (last l a) a a = 0) as -> by (apply (orient_dup (last l a) a)).
  assert (G : forall k m, (forall j p, nth_error m j = Some p -> nth_error l (k + j) = Some p) -> (m = [] \/ exists p r, m = p :: r) -> forall p r, m = p :: r -> 0 <= fan a p r).
  { intros k m. revert k. induction m as [|p m IH]; intros k Hm _ p' r E; [discriminate|]. injection E as <- <-.
    destruct m as [|q m]; cbn [fan]; [lra|]. apply Rplus_le_le_0_compat.
    - rewrite orient_cyc, orient_cyc. apply (O 0%nat (S k) (S (S k))); try lia; [reflexivity | |].
      + change (nth_error l k = Some p). rewrite <- (Nat.add_0_r k). apply Hm. reflexivity.
      + change (nth_error l (S k) = Some q). replace (S k) with (k + 1)%nat by lia. apply Hm. reflexivity.
    - apply (IH (S k)) with (p := q) (r := m); [|right; exists q, m; reflexivity | reflexivity].
      intros j p' Hj. replace (S k + j)%nat with (k + S j)%nat by lia. apply Hm. exact Hj. }
  destruct l as [|b l]; cbn [fan]; [lra|]. destruct (orient_dup a b) as (_ & _ & ->).
  assert (0 <= fan a b l); [|lra]. apply (G 0%nat (b :: l)); [intros j p Hj; exact Hj | right; exists b, l; reflexivity | reflexivity].
Qed.

Section Clip.
Variables (h : p2 -> R) (eps : R).
Hypothesis h_affine : affine h.
Hypothesis eps_pos : 0 <= eps.
Lemma arcs_edges b0 bs n0 ns : (forall v, In v (b0 :: bs) -> behind (sd2 h eps) v = true) -> (forall v, In v (n0 :: ns) -> behind (sd2 h eps) v = false) ->
  on_edge (last ns n0) b0 (join (sd2 h eps) (inter2 h) (fun p => p) (last ns n0) b0) /\ on_edge (last bs b0) n0 (join (sd2 h eps) (inter2 h) (fun p => p) (last bs b0) n0).
Proof.
  intros X Y.
  assert (B1 : In (last bs b0) (b0 :: bs)) by (rewrite <- (last_cons b0 bs b0); apply last_in; discriminate).
  assert (N1 : In (last ns n0) (n0 :: ns)) by (rewrite <- (last_cons n0 ns n0); apply last_in; discriminate).
  split.
  - apply (join_ok h eps h_affine eps_pos b0 (last ns n0)); [apply X; left; reflexivity | apply Y, N1].
  - apply (join_ok h eps h_affine eps_pos (last bs b0) n0); [apply X, B1 | apply Y; left; reflexivity].
Qed.
Lemma clip_oriented l : convex_poly l -> oriented l -> oriented (clip2 h eps l).
Proof.
  intros C O. destruct (convex_arcs h eps h_affine eps_pos l C) as [A | N | b0 bs n0 ns r R X Y E].
  - exact O.
  - intros [|i] j k u v w _ _ Eu; discriminate.
  - apply (oriented_rot _ _ (rot_sym _ _ E)). destruct (arcs_edges b0 bs n0 ns X Y) as [Oy Oe].
    apply (oriented_part b0 bs n0 ns); [exact (oriented_rot _ _ R O) | exact Oy | exact Oe].
Qed.
Lemma clip_area l : convex_poly l -> oriented l -> 0 <= area_of (clip2 h eps l) <= area_of l.
Proof.
  intros C O. split; [apply area_nonneg2, clip_oriented; assumption|]. destruct (convex_arcs h eps h_affine eps_pos l C) as [A | N | b0 bs n0 ns r R X Y E].
  - lra.
  - cbn [area_of]. apply area_nonneg2, O.
  - destruct (arcs_edges b0 bs n0 ns X Y) as [Oy Oe]. rewrite (area_rot _ _ R), (area_rot _ _ E), (area_parts _ _ _ _ _ _ Oy Oe).
    apply (oriented_rot _ _ R) in O. assert (O2 : oriented ((n0 :: ns) ++ b0 :: bs)) by (apply (oriented_rot ((b0 :: bs) ++ n0 :: ns)); [exists (b0 :: bs), (n0 :: ns); split; reflexivity | exact O]).
    assert (K := area_nonneg2 _ (oriented_part n0 ns b0 bs _ _ O2 Oe Oy)). lra.
Qed.
End Clip.

(** Clipping by both sides of a plane: the areas add up if no vertex is within the tolerance of the plane. *)
Lemma both_sides h eps l : affine h -> 0 <= eps -> convex_poly l -> (forall v, In v l -> eps < Rabs (h v)) ->
  area_of (clip2 h eps l) + area_of (clip2 (fun p => - h p) eps l) = area_of l.
Proof.
  intros A P C F. assert (A' : affine (fun p => - h p)).
  { destruct A as (c & a & b & E). exists (- c), (- a), (- b). intros p. rewrite E. ring. }
  set (g := fun p => - h p) in *.
  assert (S : forall v, In v l -> (sd2 h eps v = Behind /\ sd2 g eps v = Front) \/ (sd2 h eps v = Front /\ sd2 g eps v = Behind)).
  { intros v I. specialize (F v I). unfold sd2, g. unfold Rabs in F. destruct (Rcase_abs (h v)); [left | right];
      destruct (Rlt_dec eps (h v)), (Rlt_dec (h v) (- eps)), (Rlt_dec eps (- h v)), (Rlt_dec (- h v) (- eps)); try lra; split; reflexivity. }
  assert (Bn : forall v, In v l -> behind (sd2 g eps) v = negb (behind (sd2 h eps) v)).
  { intros v I. unfold behind. destruct (S v I) as [[-> ->]|[-> ->]]; reflexivity. }
  destruct (convex_arcs h eps A P l C) as [Al | Nn | b0 bs n0 ns r R X Y E].
  - assert (Z : clip2 g eps l = []).
    { unfold clip2. destruct l as [|x l]; [reflexivity|]. cbn [gclip]. apply path_front; [rewrite Bn, Al by (apply last_in; discriminate); reflexivity|].
      intros v I. rewrite Bn, Al by exact I. reflexivity. }
    rewrite Z. cbn [area_of]. ring.
  - assert (Z : clip2 g eps l = l).
    { unfold clip2. destruct l as [|x l]; [reflexivity|]. cbn [gclip]. apply path_behind; [rewrite Bn, Nn by (apply last_in; discriminate); reflexivity|].
      intros v I. rewrite Bn, Nn by exact I. reflexivity. }
    rewrite Z. cbn [area_of]. ring.
  - assert (In1 : forall v, In v (b0 :: bs) \/ In v (n0 :: ns) -> In v l) by (intros v I; apply (rot_in _ _ _ (rot_sym _ _ R)), in_or_app, I).
    assert (X' : forall v, In v (b0 :: bs) -> behind (sd2 g eps) v = false) by (intros v I; rewrite Bn, X by auto; reflexivity).
    assert (Y' : forall v, In v (n0 :: ns) -> behind (sd2 g eps) v = true) by (intros v I; rewrite Bn, Y by auto; reflexivity).
    assert (B1 : In (last bs b0) (b0 :: bs)) by (rewrite <- (last_cons b0 bs b0); apply last_in; discriminate).
    assert (N1 : In (last ns n0) (n0 :: ns)) by (rewrite <- (last_cons n0 ns n0); apply last_in; discriminate).
    assert (R' : rot (clip2 g eps l) (clip2 g eps ((n0 :: ns) ++ b0 :: bs))).
    { apply (gclip_rot (sd2 g eps) (inter2 g) (fun p => p)). apply (rot_trans _ _ _ R). exists (b0 :: bs), (n0 :: ns). split; reflexivity. }
    rewrite (area_rot _ _ R'). destruct (arcs_edges h eps A P b0 bs n0 ns X Y) as [Oy Oe].
    assert (Eg : clip2 g eps ((n0 :: ns) ++ b0 :: bs) =
      join (sd2 g eps) (inter2 g) (fun p => p) (last bs b0) n0 :: (n0 :: ns) ++ [join (sd2 g eps) (inter2 g) (fun p => p) (last ns n0) b0]).
    { unfold clip2. cbn [gclip app]. change (n0 :: ns ++ b0 :: bs) with ((n0 :: ns) ++ b0 :: bs). rewrite path_app, last_app, !last_cons.
      cbn [path]. rewrite (path_behind _ _ _ n0 ns) by (try (apply Y'; left; reflexivity); intros v I; apply Y'; right; exact I).
      rewrite (path_front _ _ _ b0 bs) by (try (apply X'; left; reflexivity); intros v I; apply X'; right; exact I). rewrite app_nil_r.
      assert (K1 := Y' n0 (or_introl eq_refl)). assert (K2 := X' b0 (or_introl eq_refl)). assert (K3 := Y' _ N1). assert (K4 := X' _ B1).
      unfold out, join, behind in *. destruct (sd2 g eps b0), (sd2 g eps n0), (sd2 g eps (last bs b0)), (sd2 g eps (last ns n0)); try discriminate; cbn [app]; reflexivity. }
    assert (J : forall a b, In a l -> In b l -> behind (sd2 h eps) a = negb (behind (sd2 h eps) b) ->
      join (sd2 g eps) (inter2 g) (fun p => p) a b = join (sd2 h eps) (inter2 h) (fun p => p) a b).
    { intros a b Ia Ib D. assert (Ei : inter2 g a b = inter2 h a b).
      { unfold inter2, g. f_equal. assert (h a - h b <> 0); [|field; split; lra].
        unfold behind in D. destruct (S a Ia) as [[Sa _]|[Sa _]]; destruct (S b Ib) as [[Sb _]|[Sb _]]; rewrite Sa, Sb in D; try discriminate;
          apply (cross_param h eps A P a b); [left | right]; split; assumption. }
      unfold join. destruct (S a Ia) as [[-> ->]|[-> ->]]; destruct (S b Ib) as [[-> ->]|[-> ->]]; exact Ei. }
    assert (Ib0 := In1 b0 (or_introl (or_introl eq_refl))). assert (In0 := In1 n0 (or_intror (or_introl eq_refl))).
    rewrite Eg, (J (last bs b0) n0), (J (last ns n0) b0); auto;
      [|rewrite (Y _ N1), (X b0 (or_introl eq_refl)); reflexivity|rewrite (X _ B1), (Y n0 (or_introl eq_refl)); reflexivity].
    rewrite (area_rot _ _ E), (area_rot _ _ R), (area_parts _ _ _ _ _ _ Oy Oe). ring.
Qed.
