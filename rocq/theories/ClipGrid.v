(** The parts of a triangle in the cells of a grid: their areas add up. *)
From Coq Require Import Reals List Arith Bool Lia Lra.
From Verif Require Import Geo MappingModel TrimmedQuadModel MeshModel MeshProofs MeshGeoModel MeshGeoProofs MeshBoxProofs ClipModel ClipTheory ClipPlane ClipArea ClipProofs ClipInv ClipMeshProofs ClipCover ClipResult ClipAdd.
Import ListNotations.
Local Open Scope R_scope.

(** *** Specification *)
(** Planes of a grid: [n d + 1] positions in each direction. *)
Definition positions_ok (cs : axis -> nat -> R) : Prop := forall d i, cs d i + plane_tol < cs d (S i).
Definition far (cs : axis -> nat -> R) (n : axis -> nat) (d : axis) (p : pt) : Prop := forall i, (i <= n d)%nat -> plane_tol < Rabs (at_ d p - cs d i).
Definition on_plane (cs : axis -> nat -> R) (n : axis -> nat) (d : axis) (p : pt) : Prop := exists i, (i <= n d)%nat /\ at_ d p = cs d i.
(** The border of a triangle. *)
Definition on_border (t : tri pt) (p : pt) : Prop := exists a b s, In a [P1 t; P2 t; P3 t] /\ In b [P1 t; P2 t; P3 t] /\ 0 <= s <= 1 /\
  forall d, at_ d p = (1 - s) * at_ d a + s * at_ d b.
(** No corner of the triangle, no point of its border on a plane and no point of it on two planes is within the tolerance of
    another plane. *)
Definition general_position (cs : axis -> nat -> R) (n : axis -> nat) (t : tri pt) : Prop :=
  (forall p d, In p [P1 t; P2 t; P3 t] -> far cs n d p) /\
  (forall p d d', on_border t p -> on_plane cs n d p -> d' <> d -> far cs n d' p) /\
  (forall p d d' d'', in_triangle t p -> on_plane cs n d p -> on_plane cs n d' p -> d <> d' -> d'' <> d -> d'' <> d' -> far cs n d'' p).
Definition within_grid (cs : axis -> nat -> R) (n : axis -> nat) (t : tri pt) : Prop :=
  forall p d, In p [P1 t; P2 t; P3 t] -> cs d 0%nat < at_ d p < cs d (n d).

(** *** Vertices and edges of the parts *)
Section Parts.
Variables (cs : axis -> nat -> R) (n : axis -> nat) (t : tri pt).
Hypothesis cs_ok : positions_ok cs.
Hypothesis gp : general_position cs n t.
Hypothesis within : within_grid cs n t.
Let tp := Rlt_le _ _ tol_pos.
Definition xd (d : axis) (q : p2) : R := at_ d (pos2 t q).
Lemma xd_affine d : affine (xd d).
Proof. eexists (at_ d (P1 t)), (at_ d (P2 t) - at_ d (P1 t)), (at_ d (P3 t) - at_ d (P1 t)). intros q. unfold xd. rewrite at_pos2. ring. Qed.
Definition S0 : list p2 := map w_q start.
Lemma S0_bounds q : hull S0 q -> 0 <= fst q /\ 0 <= snd q /\ fst q + snd q <= 1.
Proof.
  intros H. unfold S0 in H. cbn [map start corner w_q] in H. apply (H (fun q => 0 <= fst q /\ 0 <= snd q /\ fst q + snd q <= 1)).
  - intros u v s (A & B & C) (A' & B' & C') Hs. unfold mix. cbn [fst snd]. repeat split; nra.
  - intros v [<-|[<-|[<-|[]]]]; cbn [fst snd]; lra.
Qed.
Lemma S0_corner q : In q S0 -> In (pos2 t q) [P1 t; P2 t; P3 t].
Proof.
  intros I. assert (Es := start_emb t). apply (f_equal (map c_pos)) in Es. rewrite emb_pos in Es. cbn [map c_pos] in Es. rewrite <- Es. apply in_map, I.
Qed.
(** The three sides. *)
Definition side_fun (f : p2 -> R) : Prop := f = fst \/ f = snd \/ f = (fun q => 1 - fst q - snd q).
Lemma side_affine f : side_fun f -> affine f.
Proof. intros [-> | [-> | ->]]; [exists 0, 1, 0 | exists 0, 0, 1 | exists 1, (-1), (-1)]; intros; ring. Qed.
Lemma side_border f q : side_fun f -> hull S0 q -> f q = 0 -> on_border t (pos2 t q).
Proof.
  intros F H E. apply S0_bounds in H as (A & B & C). destruct F as [-> | [-> | ->]].
  - exists (P1 t), (P3 t), (snd q). split; [cbn; tauto|]. split; [cbn; tauto|]. split; [lra|]. intros d. rewrite at_pos2, E. ring.
  - exists (P1 t), (P2 t), (fst q). split; [cbn; tauto|]. split; [cbn; tauto|]. split; [lra|]. intros d. rewrite at_pos2, E. ring.
  - exists (P2 t), (P3 t), (snd q). split; [cbn; tauto|]. split; [cbn; tauto|]. split; [lra|]. intros d. rewrite at_pos2. replace (fst q) with (1 - snd q) by lra. ring.
Qed.
(** What is known about the vertices and edges after clipping by planes in the directions [D]. *)
Definition V (D : axis -> Prop) (q : p2) : Prop := hull S0 q /\
  (In q S0 \/ (exists f d, side_fun f /\ f q = 0 /\ D d /\ on_plane cs n d (pos2 t q)) \/
   exists d d', D d /\ D d' /\ d <> d' /\ on_plane cs n d (pos2 t q) /\ on_plane cs n d' (pos2 t q)).
Definition E (D : axis -> Prop) (e : p2 * p2) : Prop :=
  (exists f, side_fun f /\ f (fst e) = 0 /\ f (snd e) = 0) \/
  exists d i, D d /\ (i <= n d)%nat /\ xd d (fst e) = cs d i /\ xd d (snd e) = cs d i.
Lemma V_mono (D D' : axis -> Prop) q : (forall d, D d -> D' d) -> V D q -> V D' q.
Proof. intros H [Hq [I | [(f & d & F & Z & Hd & O) | (d & d' & Hd & Hd' & N & O & O')]]]; split; auto; [right; left; exists f, d; auto | right; right; exists d, d'; auto 10]. Qed.
Lemma E_mono (D D' : axis -> Prop) e : (forall d, D d -> D' d) -> E D e -> E D' e.
Proof. intros H [Hf | (d & i & Hd & R)]; [left; exact Hf | right; exists d, i; auto]. Qed.
Lemma V_far D q d : V D q -> ~ D d -> far cs n d (pos2 t q).
Proof.
  destruct gp as (G1 & G2 & G3). intros [Hq [I | [(f & d1 & F & Z & Hd & O) | (d1 & d2 & H1 & H2 & N & O & O')]]] Nd.
  - apply G1, S0_corner, I.
  - apply (G2 _ d1); [apply (side_border f q F Hq Z) | exact O | intros ->; contradiction].
  - apply (G3 _ d1 d2); [apply start_hull, Hq | exact O | exact O' | exact N | intros ->; contradiction | intros ->; contradiction].
Qed.
(** Every vertex is on a plane or far from it. *)
Lemma gap_lt d : forall i j, (i < j)%nat -> cs d i + plane_tol < cs d j.
Proof.
  intros i j L. induction L as [|j L IH]; [apply cs_ok|]. assert (K := cs_ok d j). assert (P := tol_pos). lra.
Qed.
Lemma V_split D q d i : V D q -> (i <= n d)%nat -> xd d q = cs d i \/ plane_tol < Rabs (xd d q - cs d i).
Proof.
  intros Hv L. assert (O : far cs n d (pos2 t q) \/ on_plane cs n d (pos2 t q)).
  { destruct gp as (G1 & G2 & G3). destruct Hv as [Hq [I | [(f & d1 & F & Z & Hd & O) | (d1 & d2 & H1 & H2 & N & O & O')]]].
    - left. apply G1, S0_corner, I.
    - assert (Dec : d = d1 \/ d <> d1) by (destruct d, d1; auto; right; discriminate). destruct Dec as [-> | Nd]; [right; exact O|].
      left. apply (G2 _ d1); [apply (side_border f q F Hq Z) | exact O | exact Nd].
    - assert (Dec : d = d1 \/ d <> d1) by (destruct d, d1; auto; right; discriminate). destruct Dec as [-> | Nd]; [right; exact O|].
      assert (Dec : d = d2 \/ d <> d2) by (destruct d, d2; auto; right; discriminate). destruct Dec as [-> | Nd2]; [right; exact O'|].
      left. apply (G3 _ d1 d2); [apply start_hull, Hq | exact O | exact O' | exact N | exact Nd | exact Nd2]. }
  destruct O as [O | (j & J & Ej)]; [right; apply O, L|]. fold (xd d q) in Ej. rewrite Ej. destruct (lt_eq_lt_dec i j) as [[K | ->] | K]; [right|left; reflexivity|right].
  - apply (gap_lt d) in K. assert (P := tol_pos). rewrite Rabs_pos_eq; lra.
  - apply (gap_lt d) in K. assert (P := tol_pos). rewrite Rabs_minus_sym, Rabs_pos_eq; lra.
Qed.
Definition plane_fun (h : p2 -> R) (d : axis) (c : R) : Prop := (forall q, h q = c - xd d q) \/ (forall q, h q = xd d q - c).
Lemma plane_fun_affine h d c : plane_fun h d c -> affine h.
Proof.
  destruct (xd_affine d) as (k & a & b & Ex). intros [H|H]; [exists (c - k), (- a), (- b) | exists (k - c), a, b]; intros q; rewrite H, Ex; ring.
Qed.
Lemma plane_fun_zero h d c q : plane_fun h d c -> h q = 0 -> xd d q = c.
Proof. intros [H|H] Z; rewrite H in Z; lra. Qed.
Lemma inter_mix h a b : inter2 h a b = mix (h a / (h a - h b)) a b.
Proof. reflexivity. Qed.
Lemma E_mix D a b s s' : E D (a, b) -> E D (mix s a b, mix s' a b).
Proof.
  intros [(f & F & A & B) | (d & i & Hd & L & A & B)]; cbn [fst snd] in *.
  - left. exists f. split; [exact F|]. cbn [fst snd]. rewrite !(affine_mix f _ a b (side_affine f F)), A, B. split; ring.
  - right. exists d, i. split; [exact Hd|]. split; [exact L|]. cbn [fst snd]. rewrite !(affine_mix _ _ a b (xd_affine d)), A, B. split; ring.
Qed.
Lemma E_on_edge D a b u v : E D (a, b) -> on_edge a b u -> on_edge a b v -> E D (u, v).
Proof. intros H (s & _ & ->) (s' & _ & ->). apply E_mix, H. Qed.
Lemma on_edge_l a b : on_edge a b a.
Proof. exists 0. split; [lra|]. symmetry. apply mix_0. Qed.
Lemma on_edge_r a b : on_edge a b b.
Proof. exists 1. split; [lra|]. symmetry. apply mix_1. Qed.
Lemma step_V (D : axis -> Prop) h d i l : plane_fun h d (cs d i) -> (i <= n d)%nat -> D d -> (forall u, In u l -> clear h plane_tol u) -> (forall u, In u l -> V D u) -> (forall e, In e (cedges l) -> E D e) ->
  forall u, In u (clip2 h plane_tol l) -> V D u.
Proof.
  intros Hh L Dd C Vl El u I. assert (A := plane_fun_affine h d _ Hh). destruct (clip_vertex h plane_tol l u tp C I) as [[J _]|(a & b & Ie & X & ->)]; [apply Vl, J|].
  destruct (cross_param h plane_tol A tp a b X) as (T & Z & N). destruct (cedges_in l a b Ie) as [Ia Ib]. specialize (El _ Ie).
  assert (Hu : hull S0 (inter2 h a b)) by (apply hull_convex; [apply Vl, Ia | apply Vl, Ib | lra]).
  assert (Zc := plane_fun_zero h d _ _ Hh Z). assert (On : on_plane cs n d (pos2 t (inter2 h a b))) by (exists i; split; [exact L | exact Zc]).
  split; [exact Hu|]. right. assert (Em := E_mix D a b (h a / (h a - h b)) 0 El). fold (inter2 h a b) in Em. destruct Em as [(f & F & Za & _) | (d1 & j & Hd & Lj & Za & Zb)].
  - left. exists f, d. auto.
  - right. exists d1, d. split; [exact Hd|]. split; [exact Dd|]. split; [|split; [exists j; split; [exact Lj | exact Za] | exact On]]. intros ->.
    destruct El as [(f & F & Fa & Fb) | (d2 & j2 & _ & _ & Xa & Xb)]; cbn [fst snd] in *.
    + apply N. assert (Za0 : xd d (inter2 h a b) = cs d i) by exact Zc. assert (xd d (mix 0 a b) = xd d a) by (rewrite mix_0; reflexivity).
      assert (cs d j = cs d i) by congruence. assert (xd d a = cs d i) by congruence.
      assert (h a = 0) by (destruct Hh as [Hh|Hh]; rewrite Hh; lra). exfalso. specialize (C a Ia). unfold clear in C. rewrite H2, Rabs_R0 in C. lra.
    + assert (xd d (mix 0 a b) = xd d a) by (rewrite mix_0; reflexivity). assert (xd d a = cs d i) by congruence.
      assert (h a = 0) by (destruct Hh as [Hh|Hh]; rewrite Hh; lra). specialize (C a Ia). unfold clear in C. rewrite H1, Rabs_R0 in C. lra.
Qed.
Lemma step_E (D : axis -> Prop) h d i l : plane_fun h d (cs d i) -> (i <= n d)%nat -> D d -> convex_poly l -> (forall u, In u l -> clear h plane_tol u) -> (forall e, In e (cedges l) -> E D e) ->
  forall e, In e (cedges (clip2 h plane_tol l)) -> E D e.
Proof.
  intros Hh L Dd Cv C El e I. assert (A := plane_fun_affine h d _ Hh). destruct (convex_arcs h plane_tol A tp l Cv) as [Al | N | b0 bs n0 ns r R X Y Er]; [apply El, I | destruct I|].
  destruct (arcs_edges h plane_tol A tp b0 bs n0 ns X Y) as [Oy Oe]. apply (cedges_rot _ _ _ Er) in I. destruct e as [u v].
  set (y := join (sd2 h plane_tol) (inter2 h) (fun p => p) (last ns n0) b0) in *. set (e' := join (sd2 h plane_tol) (inter2 h) (fun p => p) (last bs b0) n0) in *.
  assert (Ed : forall a b, In (a, b) (cedges ((b0 :: bs) ++ n0 :: ns)) -> E D (a, b)) by (intros a b Iab; apply El, (cedges_rot _ _ _ (rot_sym _ _ R)), Iab).
  assert (Il : forall w, In w (b0 :: bs) \/ In w (n0 :: ns) -> In w l) by (intros w Iw; apply (rot_in _ _ _ (rot_sym _ _ R)), in_or_app, Iw).
  assert (E1 : E D (last ns n0, b0)).
  { apply Ed. cbn [cedges app]. change (b0 :: bs ++ n0 :: ns) with ((b0 :: bs) ++ n0 :: ns). rewrite last_app, last_cons. cbn [app pairs]. left. reflexivity. }
  assert (E2 : E D (last bs b0, n0)).
  { apply Ed. cbn [cedges app]. change (b0 :: bs ++ n0 :: ns) with ((b0 :: bs) ++ n0 :: ns). rewrite pairs_app. apply in_or_app. right. rewrite last_cons. left. reflexivity. }
  assert (B1 : In (last bs b0) (b0 :: bs)) by (rewrite <- (last_cons b0 bs b0); apply last_in; discriminate).
  assert (N1 : In (last ns n0) (n0 :: ns)) by (rewrite <- (last_cons n0 ns n0); apply last_in; discriminate).
  assert (Jz : forall a b, In a l -> In b l -> behind (sd2 h plane_tol) a = negb (behind (sd2 h plane_tol) b) -> h (join (sd2 h plane_tol) (inter2 h) (fun p => p) a b) = 0).
  { intros a b Ia Ib Nb. unfold join, behind in *. destruct (clear_side h plane_tol a tp (C a Ia)) as [[Sa _]|[Sa _]], (clear_side h plane_tol b tp (C b Ib)) as [[Sb _]|[Sb _]]; rewrite Sa, Sb in *; try discriminate;
      apply (cross_param h plane_tol A tp a b); [left | right]; split; assumption. }
  apply arcs_cedges in I as [[-> ->] | [[-> ->] | [I | [-> ->]]]].
  - right. exists d, i. split; [exact Dd|]. split; [exact L|]. cbn [fst snd]. split; apply (plane_fun_zero h d _ _ Hh); apply Jz.
    + apply Il. left. exact B1.
    + apply Il. right. left. reflexivity.
    + rewrite (X _ B1), (Y n0 (or_introl eq_refl)). reflexivity.
    + apply Il. right. exact N1.
    + apply Il. left. left. reflexivity.
    + rewrite (Y _ N1), (X b0 (or_introl eq_refl)). reflexivity.
  - apply (E_on_edge D (last ns n0) b0); [exact E1 | exact Oy | apply on_edge_r].
  - apply Ed. cbn [cedges app]. change (b0 :: bs ++ n0 :: ns) with ((b0 :: bs) ++ n0 :: ns). rewrite pairs_app. apply in_or_app. left. cbn [pairs]. right. exact I.
  - apply (E_on_edge D (last bs b0) n0); [exact E2 | apply on_edge_l | exact Oe].
Qed.

(** *** One direction *)
Definition Inv (D : axis -> Prop) (l : list p2) : Prop := convex_poly l /\ (forall u, In u l -> V D u) /\ (forall e, In e (cedges l) -> E D e).
Definition add_dir (D : axis -> Prop) (d : axis) : axis -> Prop := fun d' => D d' \/ d' = d.
Lemma clear_far D q d i : V D q -> ~ D d -> (i <= n d)%nat -> clear (low (xd d) (cs d i)) plane_tol q.
Proof. intros Hv Nd L. unfold clear, low. rewrite Rabs_minus_sym. exact (V_far D q d Hv Nd i L). Qed.
Lemma slab_inv (D : axis -> Prop) d i l : Inv D l -> ~ D d -> (i < n d)%nat -> Inv (add_dir D d) (slab (xd d) plane_tol (cs d) l i) /\
  forall u, In u (slab (xd d) plane_tol (cs d) l i) -> hull l u /\ cs d i <= xd d u <= cs d (S i).
Proof.
  intros (Cv & Hv & He) Nd L. unfold slab. set (D' := add_dir D d).
  assert (M : forall d', D d' -> D' d') by (intros d'; left; assumption). assert (Dd : D' d) by (right; reflexivity).
  assert (Pl : plane_fun (low (xd d) (cs d i)) d (cs d i)) by (left; reflexivity). assert (Ph : plane_fun (high (xd d) (cs d (S i))) d (cs d (S i))) by (right; reflexivity).
  assert (Al := plane_fun_affine _ _ _ Pl). assert (Ah := plane_fun_affine _ _ _ Ph).
  assert (C1 : forall u, In u l -> clear (low (xd d) (cs d i)) plane_tol u) by (intros u I; apply (clear_far D); [apply Hv, I | exact Nd | lia]).
  assert (C1' : forall u, In u l -> clear (low (xd d) (cs d (S i))) plane_tol u) by (intros u I; apply (clear_far D); [apply Hv, I | exact Nd | lia]).
  assert (C2 : forall u, In u (clip2 (low (xd d) (cs d i)) plane_tol l) -> clear (high (xd d) (cs d (S i))) plane_tol u).
  { intros u I. apply clear_low_high. revert u I. apply (low_clear_next (xd d) plane_tol (cs d) (xd_affine d) tp (cs_ok d) l i C1 C1'). }
  set (l1 := clip2 (low (xd d) (cs d i)) plane_tol l) in *.
  assert (Cv1 : convex_poly l1) by (apply clip_convex; assumption).
  assert (V1 : forall u, In u l1 -> V D' u).
  { apply (step_V D' _ d i); [exact Pl | lia | exact Dd | exact C1 | intros u I; apply (V_mono D), Hv, I; exact M | intros e I; apply (E_mono D), He, I; exact M]. }
  assert (E1 : forall e, In e (cedges l1) -> E D' e).
  { apply (step_E D' _ d i); [exact Pl | lia | exact Dd | exact Cv | exact C1 | intros e I; apply (E_mono D), He, I; exact M]. }
  split; [split; [apply clip_convex; assumption | split]|].
  - apply (step_V D' _ d (S i)); [exact Ph | lia | exact Dd | exact C2 | exact V1 | exact E1].
  - apply (step_E D' _ d (S i)); [exact Ph | lia | exact Dd | exact Cv1 | exact C2 | exact E1].
  - intros u I. assert (B2 := clip_nonpos _ _ _ _ Ah tp C2 I). destruct (clip_inside _ _ Ah tp l1 u Cv1 I) as [H1 _].
    assert (B1 : low (xd d) (cs d i) u <= 0).
    { assert (K : 0 <= - low (xd d) (cs d i) u + 0); [|lra]. apply (H1 (fun u => 0 <= - low (xd d) (cs d i) u + 0)).
      - apply (half_convex' (fun u => - low (xd d) (cs d i) u + 0)). destruct Al as (k & a & b & Ex). exists (- k), (- a), (- b). intros p. rewrite Ex. ring.
      - intros v Iv. assert (Q := clip_nonpos _ _ _ _ Al tp C1 Iv). lra. }
    split; [|unfold low, high in *; lra]. revert H1. apply hull_mono. intros v Iv. apply (clip_inside _ _ Al tp l v Cv Iv).
Qed.
Lemma inside_bounds d q : hull S0 q -> cs d 0%nat < xd d q < cs d (n d).
Proof.
  intros H. assert (A := xd_affine d). split.
  - assert (K : - xd d q + cs d 0%nat < 0); [|lra]. apply (H (fun q => - xd d q + cs d 0%nat < 0)).
    + apply (half_convex (fun q => - xd d q + cs d 0%nat)). destruct A as (k & a & b & Ex). exists (- k + cs d 0%nat), (- a), (- b). intros p. rewrite Ex. ring.
    + intros v I. assert (W := within _ d (S0_corner v I)). fold (xd d v) in W. lra.
  - assert (K : xd d q + - cs d (n d) < 0); [|lra]. apply (H (fun q => xd d q + - cs d (n d) < 0)).
    + apply (half_convex (fun q => xd d q + - cs d (n d))), affine_shift, A.
    + intros v I. assert (W := within _ d (S0_corner v I)). fold (xd d v) in W. lra.
Qed.
Lemma stage_sum (D : axis -> Prop) d l : Inv D l -> ~ D d -> sum (fun i => area_of (slab (xd d) plane_tol (cs d) l i)) (seq 0 (n d)) = area_of l.
Proof.
  intros (Cv & Hv & He) Nd. apply (slabs_area (xd d) plane_tol (cs d) (n d) (xd_affine d) tp (cs_ok d) l Cv).
  - intros u i I L. apply (clear_far D); [apply Hv, I | exact Nd | exact L].
  - intros u I. apply inside_bounds, Hv, I.
Qed.

(** *** The cells *)
Definition none_dir : axis -> Prop := fun _ => False.
Lemma S0_inv : Inv none_dir S0.
Proof.
  split; [exact start_convex|]. split.
  - intros u I. split; [apply hull_in, I | left; exact I].
  - intros e I. left. unfold S0, start, corner in I. cbn [map w_q cedges last pairs] in I.
    destruct I as [<-|[<-|[<-|[]]]]; cbn [fst snd]; [exists fst | exists snd | exists (fun q => 1 - fst q - snd q)]; (split; [unfold side_fun; tauto|]); cbn [fst snd]; split; ring.
Qed.
Definition part1 (i : nat) : list p2 := slab (xd AX) plane_tol (cs AX) S0 i.
Definition part2 (i j : nat) : list p2 := slab (xd AY) plane_tol (cs AY) (part1 i) j.
Definition part3 (i j k : nat) : list p2 := slab (xd AZ) plane_tol (cs AZ) (part2 i j) k.
Definition dirs1 := add_dir none_dir AX.
Definition dirs2 := add_dir dirs1 AY.
Definition dirs3 := add_dir dirs2 AZ.
Lemma part1_inv i : (i < n AX)%nat -> Inv dirs1 (part1 i) /\ forall u, In u (part1 i) -> hull S0 u /\ cs AX i <= xd AX u <= cs AX (S i).
Proof. intros L. apply slab_inv; [exact S0_inv | intros [] | exact L]. Qed.
Lemma part2_inv i j : (i < n AX)%nat -> (j < n AY)%nat -> Inv dirs2 (part2 i j) /\ forall u, In u (part2 i j) -> hull (part1 i) u /\ cs AY j <= xd AY u <= cs AY (S j).
Proof. intros L L'. apply slab_inv; [apply part1_inv, L | intros [[]|F]; discriminate | exact L']. Qed.
Lemma part3_inv i j k : (i < n AX)%nat -> (j < n AY)%nat -> (k < n AZ)%nat ->
  Inv dirs3 (part3 i j k) /\ forall u, In u (part3 i j k) -> hull (part2 i j) u /\ cs AZ k <= xd AZ u <= cs AZ (S k).
Proof. intros L L' L''. apply slab_inv; [apply part2_inv; assumption | intros [[[]|F]|F]; discriminate | exact L'']. Qed.
Lemma hull_range d (lo hi : R) l u : (forall v, In v l -> lo <= xd d v <= hi) -> hull l u -> lo <= xd d u <= hi.
Proof.
  intros B H. apply (H (fun u => lo <= xd d u <= hi)); [|exact B]. intros p q s Hp Hq Hs. rewrite (affine_mix _ s p q (xd_affine d)). nra.
Qed.
Lemma part3_box i j k u : (i < n AX)%nat -> (j < n AY)%nat -> (k < n AZ)%nat -> In u (part3 i j k) ->
  cs AX i <= xd AX u <= cs AX (S i) /\ cs AY j <= xd AY u <= cs AY (S j) /\ cs AZ k <= xd AZ u <= cs AZ (S k).
Proof.
  intros L L' L'' I. destruct (part3_inv i j k L L' L'') as [_ B3]. destruct (B3 u I) as [H2 Z]. destruct (part2_inv i j L L') as [_ B2]. destruct (part1_inv i L) as [_ B1].
  assert (Y : cs AY j <= xd AY u <= cs AY (S j)) by (apply (hull_range AY _ _ (part2 i j)); [intros v Iv; apply B2, Iv | exact H2]).
  assert (X : cs AX i <= xd AX u <= cs AX (S i)).
  { apply (hull_range AX _ _ (part2 i j)); [|exact H2]. intros v Iv. apply (hull_range AX _ _ (part1 i)); [intros w Iw; apply B1, Iw | apply B2, Iv]. }
  auto.
Qed.
Lemma parts_sum : sum (fun i => sum (fun j => sum (fun k => area_of (part3 i j k)) (seq 0 (n AZ))) (seq 0 (n AY))) (seq 0 (n AX)) = 1.
Proof.
  rewrite <- start_area. fold S0. rewrite <- (stage_sum none_dir AX S0 S0_inv) by (intros []). apply sum_ext. intros i I. apply in_seq in I. destruct (part1_inv i ltac:(lia)) as [I1 _].
  fold (part1 i). rewrite <- (stage_sum dirs1 AY (part1 i) I1) by (intros [[]|F]; discriminate). apply sum_ext. intros j J. apply in_seq in J.
  destruct (part2_inv i j ltac:(lia) ltac:(lia)) as [I2 _]. fold (part2 i j). apply (stage_sum dirs2 AZ (part2 i j) I2). intros [[[]|F]|F]; discriminate.
Qed.

(** *** A part without area *)
Lemma flat_area l f : affine f -> (exists p, f p <> 0) -> (forall u, In u l -> f u = 0) -> area_of l = 0.
Proof.
  intros (c & a & b & Ef) (p & Np) H.
  assert (N : a * a + b * b <> 0 \/ l = []).
  { destruct l as [|u r]; [right; reflexivity|]. left. intros Z. assert (a = 0) by nra. assert (b = 0) by nra. specialize (H u (or_introl eq_refl)). rewrite Ef in H, Np. subst. apply Np. lra. }
  destruct N as [N | ->]; [|reflexivity].
  assert (Z : forall u v w, In u l -> In v l -> In w l -> orient u v w = 0).
  { intros u v w Iu Iv Iw. assert (Hu := H u Iu). assert (Hv := H v Iv). assert (Hw := H w Iw). rewrite Ef in Hu, Hv, Hw. unfold orient, cr.
    destruct u as [u1 u2], v as [v1 v2], w as [w1 w2]. cbn [fst snd] in *.
    assert (K : (a * a + b * b) * (u1 * v2 - u2 * v1 + (v1 * w2 - v2 * w1) + (w1 * u2 - w2 * u1)) = 0).
    { assert (K1 : a * (v1 - u1) + b * (v2 - u2) = 0) by lra. assert (K2 : a * (w1 - u1) + b * (w2 - u2) = 0) by lra.
      replace ((a * a + b * b) * (u1 * v2 - u2 * v1 + (v1 * w2 - v2 * w1) + (w1 * u2 - w2 * u1)))
        with (a * ((a * (v1 - u1) + b * (v2 - u2)) * (w2 - u2) - (a * (w1 - u1) + b * (w2 - u2)) * (v2 - u2)) +
              b * ((v1 - u1) * (a * (w1 - u1) + b * (w2 - u2)) - (w1 - u1) * (a * (v1 - u1) + b * (v2 - u2)))) by ring.
      rewrite K1, K2. ring. }
    apply Rmult_integral in K as [K|K]; [contradiction | exact K]. }
  destruct l as [|u r]; [reflexivity|]. rewrite <- (fan_area u u r).
  assert (G : forall m v, In v (u :: r) -> (forall w, In w m -> In w (u :: r)) -> fan u v m = 0).
  { induction m as [|w m IH]; intros v Iv Im; [reflexivity|]. cbn [fan]. rewrite Z; [|exact Iv | apply Im; left; reflexivity | left; reflexivity]. rewrite IH; [ring | apply Im; left; reflexivity | intros w' I; apply Im; right; exact I]. }
  rewrite G; [|left; reflexivity | intros w I; right; exact I]. rewrite Z; [ring | | left; reflexivity | left; reflexivity]. rewrite <- (last_cons u r u). apply last_in. discriminate.
Qed.
Lemma sum2_pos f l m : 0 <= m -> (forall v, In v l -> 0 <= f v) -> (exists v, In v l /\ m < f v) -> m < sum2 f l.
Proof.
  intros Pm. induction l as [|a l IH]; intros H (v & I & Hv); [destruct I|]. change (sum2 f (a :: l)) with (f a + sum2 f l).
  assert (Pl : 0 <= sum2 f l). { clear IH I. assert (Hl : forall v, In v l -> 0 <= f v) by (intros w J; apply H; right; exact J). clear H. induction l as [|b l IH]; [cbn; lra|]. change (sum2 f (b :: l)) with (f b + sum2 f l).
    assert (0 <= f b) by (apply Hl; left; reflexivity). assert (0 <= sum2 f l) by (apply IH; intros w J; apply Hl; right; exact J). lra. }
  assert (Pa : 0 <= f a) by (apply H; left; reflexivity). destruct I as [-> | I]; [lra|].
  assert (m < sum2 f l); [|lra]. apply IH; [intros w J; apply H; right; exact J | exists v; split; assumption].
Qed.
(** The centroid of a part is in its cell, off the faces by more than a ninth of the tolerance, or the part has no area. *)
Lemma side_room (D : axis -> Prop) l f d c : l <> [] -> (length l <= 9)%nat -> plane_fun f d c -> (forall u, In u l -> f u = 0 \/ plane_tol < Rabs (f u)) -> (forall u, In u l -> 0 <= f u) ->
  (exists p, f p <> 0) -> area_of l = 0 \/ zerotol < f (centroid2 l).
Proof.
  intros N L Pf Hs Hp Np. assert (A := plane_fun_affine f d c Pf).
  assert (Dec : (forall u, In u l -> f u = 0) \/ exists u, In u l /\ f u <> 0).
  { clear. induction l as [|a l IH]; [left; intros u []|]. destruct (Req_EM_T (f a) 0) as [Z|Z]; [|right; exists a; split; [left; reflexivity | exact Z]].
    destruct IH as [IH|(u & I & U)]; [left; intros u [<-|I]; [exact Z | apply IH, I] | right; exists u; split; [right; exact I | exact U]]. }
  destruct Dec as [Z|(u & I & U)]; [left; apply (flat_area l f A Np Z)|]. right.
  assert (Fu : plane_tol < f u) by (destruct (Hs u I) as [F|F]; [contradiction|]; rewrite Rabs_pos_eq in F; [exact F | apply Hp, I]).
  assert (Sm := sum2_pos f l plane_tol tp Hp (ex_intro _ u (conj I Fu))). rewrite <- (centroid_sum f l A N) in Sm.
  assert (P1 : INR (length l) <= 9). { replace 9 with (INR 9) by (cbn; ring). apply le_INR, L. }
  assert (P0 : 0 < INR (length l)) by (apply lt_0_INR; destruct l; [congruence | cbn [length]; lia]).
  unfold plane_tol in Sm. assert (Zt := zerotol_pos). destruct (Rlt_dec zerotol (f (centroid2 l))) as [G|G]; [exact G|]. exfalso. nra.
Qed.
End Parts.
