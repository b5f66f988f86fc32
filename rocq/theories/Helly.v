(** Helly's theorem in the plane, and systems of three linear inequalities in two unknowns. *)
From Coq Require Import Reals Lra Psatz List.
Import ListNotations.
Local Open Scope R_scope.

Definition pset := R -> R -> Prop.
Definition convex (C : pset) : Prop :=
  forall x y x' y' l, C x y -> C x' y' -> 0 <= l <= 1 -> C (l * x + (1 - l) * x') (l * y + (1 - l) * y').
Definition meet (A B : pset) : pset := fun x y => A x y /\ B x y.
Lemma convex_meet A B : convex A -> convex B -> convex (meet A B).
Proof. intros HA HB x y x' y' l [H1 H2] [H3 H4] Hl. split; auto. Qed.

Lemma conv2 C x1 y1 x2 y2 w1 w2 : convex C -> C x1 y1 -> C x2 y2 -> 0 <= w1 -> 0 <= w2 -> 0 < w1 + w2 ->
  C ((w1 * x1 + w2 * x2) / (w1 + w2)) ((w1 * y1 + w2 * y2) / (w1 + w2)).
Proof.
  intros HC H1 H2 W1 W2 W. pose (l := w1 / (w1 + w2)).
  assert (Hl : 0 <= l <= 1).
  { unfold l. split; [apply Rmult_le_pos; [lra | left; apply Rinv_0_lt_compat; lra] | ].
    apply (Rmult_le_reg_r (w1 + w2)); [lra | ]. unfold Rdiv. rewrite Rmult_assoc, Rinv_l by lra. lra. }
  pose proof (HC x1 y1 x2 y2 l H1 H2 Hl) as H. unfold l in H.
  replace ((w1 * x1 + w2 * x2) / (w1 + w2)) with (w1 / (w1 + w2) * x1 + (1 - w1 / (w1 + w2)) * x2) by (field; lra).
  replace ((w1 * y1 + w2 * y2) / (w1 + w2)) with (w1 / (w1 + w2) * y1 + (1 - w1 / (w1 + w2)) * y2) by (field; lra).
  exact H.
Qed.
Lemma conv3 C x1 y1 x2 y2 x3 y3 w1 w2 w3 s : convex C -> C x1 y1 -> C x2 y2 -> C x3 y3 ->
  0 <= w1 -> 0 <= w2 -> 0 <= w3 -> w1 + w2 + w3 = s -> 0 < s ->
  C ((w1 * x1 + w2 * x2 + w3 * x3) / s) ((w1 * y1 + w2 * y2 + w3 * y3) / s).
Proof.
  intros HC H1 H2 H3 W1 W2 W3 <- W.
  destruct (Rle_lt_dec (w1 + w2) 0) as [Z | P].
  - replace w1 with 0 by lra. replace w2 with 0 by lra.
    replace ((0 * x1 + 0 * x2 + w3 * x3) / (0 + 0 + w3)) with x3 by (field; lra).
    replace ((0 * y1 + 0 * y2 + w3 * y3) / (0 + 0 + w3)) with y3 by (field; lra). exact H3.
  - pose proof (conv2 C _ _ _ _ w1 w2 HC H1 H2 W1 W2 P) as H.
    pose proof (conv2 C _ _ _ _ (w1 + w2) w3 HC H H3 ltac:(lra) W3 W) as H'.
    replace ((w1 * x1 + w2 * x2 + w3 * x3) / (w1 + w2 + w3))
      with (((w1 + w2) * ((w1 * x1 + w2 * x2) / (w1 + w2)) + w3 * x3) / (w1 + w2 + w3)) by (field; lra).
    replace ((w1 * y1 + w2 * y2 + w3 * y3) / (w1 + w2 + w3))
      with (((w1 + w2) * ((w1 * y1 + w2 * y2) / (w1 + w2)) + w3 * y3) / (w1 + w2 + w3)) by (field; lra).
    exact H'.
Qed.

(** Four points of the plane are affinely dependent. *)
Lemma radon x1 y1 x2 y2 x3 y3 x4 y4 : exists a1 a2 a3 a4,
  a1 + a2 + a3 + a4 = 0 /\ a1 * x1 + a2 * x2 + a3 * x3 + a4 * x4 = 0 /\ a1 * y1 + a2 * y2 + a3 * y3 + a4 * y4 = 0 /\
  (a1 <> 0 \/ a2 <> 0 \/ a3 <> 0 \/ a4 <> 0).
Proof.
  pose (D := fun ax ay bx by_ cx cy => (bx - ax) * (cy - ay) - (by_ - ay) * (cx - ax)).
  pose (d4 := D x1 y1 x2 y2 x3 y3).
  destruct (Req_dec d4 0) as [E | N].
  - destruct (Req_dec x1 x2) as [Ex | Nx].
    + destruct (Req_dec y1 y2) as [Ey | Ny].
      * exists 1, (-1), 0, 0. subst. split; [lra | split; [lra | split; [lra | left; lra]]].
      * exists (y2 - y3), (y3 - y1), (y1 - y2), 0. unfold d4, D in E. split; [lra | split; [nra | split; [nra | right; right; left; lra]]].
    + exists (x2 - x3), (x3 - x1), (x1 - x2), 0. unfold d4, D in E. split; [lra | split; [nra | split; [nra | right; right; left; lra]]].
  - exists (D x2 y2 x3 y3 x4 y4), (- D x1 y1 x3 y3 x4 y4), (D x1 y1 x2 y2 x4 y4), (- d4). unfold d4, D in *.
    split; [ring | split; [ring | split; [ring | right; right; right; lra]]].
Qed.

Lemma helly4 (C1 C2 C3 C4 : pset) : convex C1 -> convex C2 -> convex C3 -> convex C4 ->
  (exists x y, C2 x y /\ C3 x y /\ C4 x y) -> (exists x y, C1 x y /\ C3 x y /\ C4 x y) ->
  (exists x y, C1 x y /\ C2 x y /\ C4 x y) -> (exists x y, C1 x y /\ C2 x y /\ C3 x y) ->
  exists x y, C1 x y /\ C2 x y /\ C3 x y /\ C4 x y.
Proof.
  intros H1 H2 H3 H4 (x1 & y1 & A1 & A2 & A3) (x2 & y2 & B1 & B2 & B3) (x3 & y3 & D1 & D2 & D3) (x4 & y4 & E1 & E2 & E3).
  destruct (radon x1 y1 x2 y2 x3 y3 x4 y4) as (a1 & a2 & a3 & a4 & S0 & Sx & Sy & N).
  pose (p a := Rmax a 0). pose (m a := Rmax (- a) 0).
  assert (Pm : forall a, a = p a - m a /\ 0 <= p a /\ 0 <= m a /\ (p a = 0 \/ m a = 0)).
  { intros a. unfold p, m, Rmax. destruct (Rle_dec a 0), (Rle_dec (- a) 0); repeat split; lra. }
  destruct (Pm a1) as (Q1 & P1 & M1 & Z1). destruct (Pm a2) as (Q2 & P2 & M2 & Z2).
  destruct (Pm a3) as (Q3 & P3 & M3 & Z3). destruct (Pm a4) as (Q4 & P4 & M4 & Z4).
  remember (p a1) as p1. remember (p a2) as p2. remember (p a3) as p3. remember (p a4) as p4.
  remember (m a1) as m1. remember (m a2) as m2. remember (m a3) as m3. remember (m a4) as m4.
  clear p m Pm Heqp1 Heqp2 Heqp3 Heqp4 Heqm1 Heqm2 Heqm3 Heqm4. subst a1 a2 a3 a4.
  pose (s := p1 + p2 + p3 + p4). assert (Es : s = m1 + m2 + m3 + m4) by (unfold s; lra).
  assert (Ps : 0 < s).
  { destruct (Rle_lt_dec s 0) as [L | L]; [ | exact L]. exfalso. unfold s in *. destruct N as [N | [N | [N | N]]]; lra. }
  pose (X := (p1 * x1 + p2 * x2 + p3 * x3 + p4 * x4) / s). pose (Y := (p1 * y1 + p2 * y2 + p3 * y3 + p4 * y4) / s).
  assert (EX : X = (m1 * x1 + m2 * x2 + m3 * x3 + m4 * x4) / s) by (unfold X; f_equal; lra).
  assert (EY : Y = (m1 * y1 + m2 * y2 + m3 * y3 + m4 * y4) / s) by (unfold Y; f_equal; lra).
  exists X, Y. split; [ | split; [ | split]].
  - destruct Z1 as [Z | Z].
    + unfold X, Y. rewrite Z. replace (0 * x1 + p2 * x2 + p3 * x3 + p4 * x4) with (p2 * x2 + p3 * x3 + p4 * x4) by ring.
      replace (0 * y1 + p2 * y2 + p3 * y3 + p4 * y4) with (p2 * y2 + p3 * y3 + p4 * y4) by ring. apply conv3; auto; unfold s; lra.
    + rewrite EX, EY, Z. replace (0 * x1 + m2 * x2 + m3 * x3 + m4 * x4) with (m2 * x2 + m3 * x3 + m4 * x4) by ring.
      replace (0 * y1 + m2 * y2 + m3 * y3 + m4 * y4) with (m2 * y2 + m3 * y3 + m4 * y4) by ring. apply conv3; auto; lra.
  - destruct Z2 as [Z | Z].
    + unfold X, Y. rewrite Z. replace (p1 * x1 + 0 * x2 + p3 * x3 + p4 * x4) with (p1 * x1 + p3 * x3 + p4 * x4) by ring.
      replace (p1 * y1 + 0 * y2 + p3 * y3 + p4 * y4) with (p1 * y1 + p3 * y3 + p4 * y4) by ring. apply conv3; auto; unfold s; lra.
    + rewrite EX, EY, Z. replace (m1 * x1 + 0 * x2 + m3 * x3 + m4 * x4) with (m1 * x1 + m3 * x3 + m4 * x4) by ring.
      replace (m1 * y1 + 0 * y2 + m3 * y3 + m4 * y4) with (m1 * y1 + m3 * y3 + m4 * y4) by ring. apply conv3; auto; lra.
  - destruct Z3 as [Z | Z].
    + unfold X, Y. rewrite Z. replace (p1 * x1 + p2 * x2 + 0 * x3 + p4 * x4) with (p1 * x1 + p2 * x2 + p4 * x4) by ring.
      replace (p1 * y1 + p2 * y2 + 0 * y3 + p4 * y4) with (p1 * y1 + p2 * y2 + p4 * y4) by ring. apply conv3; auto; unfold s; lra.
    + rewrite EX, EY, Z. replace (m1 * x1 + m2 * x2 + 0 * x3 + m4 * x4) with (m1 * x1 + m2 * x2 + m4 * x4) by ring.
      replace (m1 * y1 + m2 * y2 + 0 * y3 + m4 * y4) with (m1 * y1 + m2 * y2 + m4 * y4) by ring. apply conv3; auto; lra.
  - destruct Z4 as [Z | Z].
    + unfold X, Y. rewrite Z. replace (p1 * x1 + p2 * x2 + p3 * x3 + 0 * x4) with (p1 * x1 + p2 * x2 + p3 * x3) by ring.
      replace (p1 * y1 + p2 * y2 + p3 * y3 + 0 * y4) with (p1 * y1 + p2 * y2 + p3 * y3) by ring. apply conv3; auto; unfold s; lra.
    + rewrite EX, EY, Z. replace (m1 * x1 + m2 * x2 + m3 * x3 + 0 * x4) with (m1 * x1 + m2 * x2 + m3 * x3) by ring.
      replace (m1 * y1 + m2 * y2 + m3 * y3 + 0 * y4) with (m1 * y1 + m2 * y2 + m3 * y3) by ring. apply conv3; auto; lra.
Qed.

(** Helly's theorem: finitely many convex sets of the plane of which any three meet have a common point. *)
Theorem helly n : forall L : list pset, length L = n -> L <> [] -> Forall convex L ->
  (forall A B C, In A L -> In B L -> In C L -> exists x y, A x y /\ B x y /\ C x y) ->
  exists x y, Forall (fun C => C x y) L.
Proof.
  induction n as [ | n IH]; intros L Hn HL HC H3.
  - destruct L; [congruence | discriminate].
  - destruct L as [ | C L]; [congruence | ]. injection Hn as Hn.
    inversion HC as [ | ? ? CC CL]; subst.
    assert (DL : L = [] \/ L <> []) by (destruct L; [left; reflexivity | right; discriminate]). destruct DL as [-> | NL].
    + destruct (H3 C C C) as (x & y & H & _); try (left; reflexivity). exists x, y. constructor; [exact H | constructor].
    + destruct (IH (map (meet C) L)) as (x & y & H).
      * rewrite map_length. reflexivity.
      * intros E. apply map_eq_nil in E. exact (NL E).
      * apply Forall_map. eapply Forall_impl; [ | exact CL]. intros A HA. apply convex_meet; assumption.
      * intros A B D HA HB HD. apply in_map_iff in HA, HB, HD.
        destruct HA as (A' & <- & HA). destruct HB as (B' & <- & HB). destruct HD as (D' & <- & HD).
        rewrite Forall_forall in CL.
        assert (IA : In A' (C :: L)) by (right; exact HA). assert (IB : In B' (C :: L)) by (right; exact HB).
        assert (ID : In D' (C :: L)) by (right; exact HD). assert (IC : In C (C :: L)) by (left; reflexivity).
        destruct (helly4 A' B' D' C (CL A' HA) (CL B' HB) (CL D' HD) CC (H3 B' D' C IB ID IC) (H3 A' D' C IA ID IC)
          (H3 A' B' C IA IB IC) (H3 A' B' D' IA IB ID)) as (x & y & K1 & K2 & K3 & K4).
        exists x, y. unfold meet. auto.
      * exists x, y. apply Forall_map in H. destruct L as [ | A L]; [congruence | ]. constructor.
        -- inversion H as [ | ? ? [K _] _]; subst. exact K.
        -- eapply Forall_impl; [ | exact H]. intros B [_ K]. exact K.
Qed.
