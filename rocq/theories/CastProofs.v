(** Proofs about ray casts through a mesh and the votes on their outcomes. *)
From Coq Require Import Reals Lra Psatz List Arith Bool ZArith Lia Permutation.
From Verif Require Import Geo MappingModel TrimmedQuadModel MeshModel MeshGeoModel StlModel SearchModel SearchProofs SearchInsert SearchQuery SearchProps GeoQueryModel SatMain GeoQueryProofs RayProofs.
Import ListNotations.
Local Open Scope R_scope.

(** *** Specification *)
(** The ray leaves its origin and crosses the triangle, away from its edges. *)
Definition steep (r : ray) (q : tri pt) : Prop := 10 * zerotol <= Rabs (dot (r_dir r) (normal_dir q)).
Definition crosses (r : ray) (q : tri pt) (t : R) : Prop :=
  steep r q /\ zerotol <= t /\ exists u v, along r t = plane_point q u v /\ zerotol <= u /\ zerotol <= v /\ u + v <= 1 - zerotol.
(** The origin is (up to the tolerance) on the triangle; the ray passes (up to the tolerance) through an edge. *)
Definition reaches (r : ray) (q : tri pt) (t u v : R) : Prop :=
  steep r q /\ along r t = plane_point q u v /\ accurate t u v /\ u <= 1 + zerotol.
Definition touches (r : ray) (q : tri pt) : Prop := exists t u v, reaches r q t u v /\ t < zerotol.
Definition grazes (r : ray) (q : tri pt) : Prop :=
  exists t u v, reaches r q t u v /\ zerotol <= t /\ (u < zerotol \/ v < zerotol \/ 1 - zerotol < u + v).
Definition large (q : tri pt) : Prop := 100 * zerotol < tri_area q.

(** *** One triangle *)
Lemma hit_reaches r q t u v back : ray_triangle r q = Hit t u v back <-> reaches r q t u v /\ (back = true <-> 0 < dot (r_dir r) (normal_dir q)).
Proof. rewrite (proj2 (ray_triangle_ok r q)). unfold reaches, steep. tauto. Qed.
Lemma on_edge_true u v : on_edge u v = true <-> u < zerotol \/ v < zerotol \/ 1 - zerotol < u + v.
Proof. unfold on_edge. rewrite !orb_true_iff, !rltb_true. rewrite Rplus_0_l. tauto. Qed.
Lemma steep_det r q : steep r q -> det_of r q <> 0.
Proof.
  unfold steep. rewrite det_normal. intros H E. pose proof zerotol_pos. assert (E' : dot (r_dir r) (normal_dir q) = 0) by lra.
  rewrite E', Rabs_R0 in H. lra.
Qed.
Lemma reaches_unique r q t u v t' u' v' : steep r q -> along r t = plane_point q u v -> along r t' = plane_point q u' v' -> t = t' /\ u = u' /\ v = v'.
Proof.
  intros S H1 H2. apply steep_det in S. pose proof (bary_unique r q t u v S H1) as B1. pose proof (bary_unique r q t' u' v' S H2) as B2.
  rewrite B1 in B2. injection B2 as -> -> ->. auto.
Qed.
(** The three ways of hitting a triangle. *)
Definition kind (r : ray) (q : tri pt) (x : crossing) : Prop :=
  match x with
  | Parallel => ~ steep r q
  | Miss => steep r q /\ ~ touches r q /\ ~ grazes r q /\ forall t, ~ crosses r q t
  | Hit t u v back =>
      (back = true <-> 0 < dot (r_dir r) (normal_dir q)) /\
      if rltb t zerotol then touches r q /\ (forall t, ~ crosses r q t)
      else if on_edge u v then grazes r q /\ (forall t, ~ crosses r q t) /\ ~ touches r q
      else ~ touches r q /\ ~ grazes r q /\ (forall t', crosses r q t' <-> t' = t)
  end.
Lemma kind_ok r q : kind r q (ray_triangle r q).
Proof.
  pose proof zerotol_pos as Zp. pose proof (ray_triangle_ok r q) as [HP HH]. pose proof (fun t u v b => hit_reaches r q t u v b) as HR.
  assert (CR : forall t, crosses r q t -> exists u v, reaches r q t u v /\ zerotol <= t /\ on_edge u v = false).
  { intros t (S & Ht & u & v & E & U & V & W). exists u, v. unfold reaches, accurate. split; [ | split; [exact Ht | ]].
    - repeat split; try assumption; lra.
    - destruct (on_edge u v) eqn:O; [ | reflexivity]. apply on_edge_true in O. lra. }
  destruct (ray_triangle r q) as [ | | t u v back] eqn:E; cbn [kind].
  - assert (S : steep r q) by (unfold steep; destruct (Rle_dec (10 * zerotol) (Rabs (dot (r_dir r) (normal_dir q)))) as [ | N]; [assumption | exfalso; assert (Miss = Parallel) by (apply HP; lra); discriminate]).
    assert (N : forall t u v, ~ reaches r q t u v).
    { intros t u v H. destruct (rltb 0 (dot (r_dir r) (normal_dir q))) eqn:B.
      - assert (K : Miss = Hit t u v true) by (apply HR; split; [exact H | rewrite <- rltb_true; tauto]). discriminate.
      - assert (K : Miss = Hit t u v false) by (apply HR; split; [exact H | rewrite <- rltb_true, B; tauto]). discriminate. }
    split; [exact S | ]. split; [ | split].
    + intros (t & u & v & H & _). exact (N _ _ _ H).
    + intros (t & u & v & H & _). exact (N _ _ _ H).
    + intros t H. destruct (CR t H) as (u & v & K & _). exact (N _ _ _ K).
  - unfold steep. assert (K : Rabs (dot (r_dir r) (normal_dir q)) < 10 * zerotol) by (apply HP; reflexivity). lra.
  - destruct (proj1 (HR t u v back) eq_refl) as [R0 B]. split; [exact B | ]. destruct R0 as (S & Ep & Acc & U1).
    assert (UN : forall t' u' v', reaches r q t' u' v' -> t' = t /\ u' = u /\ v' = v).
    { intros t' u' v' (_ & Ep' & _). apply (reaches_unique r q t' u' v' t u v S Ep' Ep). }
    destruct (rltb t zerotol) eqn:Et.
    + apply rltb_true in Et. split; [exists t, u, v; split; [repeat split; auto; apply Acc | exact Et] | ].
      intros t' H. destruct (CR t' H) as (u' & v' & K & K2 & _). destruct (UN _ _ _ K) as (-> & _ & _). lra.
    + apply rltb_false in Et. destruct (on_edge u v) eqn:Oe.
      * split; [exists t, u, v; split; [repeat split; auto; apply Acc | split; [exact Et | apply on_edge_true, Oe]] | ]. split.
        -- intros t' H. destruct (CR t' H) as (u' & v' & K & _ & K3). destruct (UN _ _ _ K) as (_ & -> & ->). congruence.
        -- intros (t' & u' & v' & K & K2). destruct (UN _ _ _ K) as (-> & _ & _). lra.
      * split; [ | split].
        -- intros (t' & u' & v' & K & K2). destruct (UN _ _ _ K) as (-> & _ & _). lra.
        -- intros (t' & u' & v' & K & K2 & K3). destruct (UN _ _ _ K) as (_ & -> & ->). apply on_edge_true in K3. congruence.
        -- intros t'. split.
           ++ intros H. destruct (CR t' H) as (u' & v' & K & _). apply (UN _ _ _ K).
           ++ intros ->. split; [exact S | ]. split; [exact Et | ]. exists u, v. split; [exact Ep | ].
              assert (Ne : ~ (u < zerotol \/ v < zerotol \/ 1 - zerotol < u + v)) by (rewrite <- on_edge_true; congruence). lra.
Qed.
(** A crossed triangle is among the candidates. *)
Lemma crosses_meets r q t : crosses r q t -> meets r (tri_box RA (corners q)).
Proof.
  intros (S & Ht & u & v & E & U & V & W). pose proof zerotol_pos. exists t. split; [lra | ]. apply in_triangle_box.
  exists (1 - u - v), u, v. repeat (split; [lra | ]). intros i. rewrite E. destruct i; cbn; ring.
Qed.

(** *** Casts through a closed mesh *)
Definition counted (r : ray) (e : nat * tri pt) : bool :=
  rltb (100 * zerotol) (tri_area (snd e)) && match ray_triangle r (snd e) with Hit _ _ _ _ => true | _ => false end.
Lemma closed_loop_ok r l : forall n,
  match closed_loop r l n with
  | CastUndefined => exists i q, In (i, q) l /\ large q /\ ~ steep r q
  | Cast inside true => (inside = false /\ exists i q, In (i, q) l /\ large q /\ touches r q) \/
      (inside = Nat.odd (length (List.filter (counted r) l) + n) /\
       forall i q, In (i, q) l -> large q -> (exists t, crosses r q t) <-> counted r (i, q) = true)
  | Cast inside false => inside = false /\ exists i q, In (i, q) l /\ large q /\ grazes r q
  end.
Proof.
  induction l as [ | [i q] l IH]; intros n; cbn [closed_loop].
  - right. split; [reflexivity | intros ? ? []].
  - pose proof (kind_ok r q) as K.
    assert (Skip : forall n', (length (List.filter (counted r) ((i, q) :: l)) + n = length (List.filter (counted r) l) + n')%nat ->
      (large q -> (exists t, crosses r q t) <-> counted r (i, q) = true) ->
      match closed_loop r l n' with
      | CastUndefined => exists i0 q0, In (i0, q0) ((i, q) :: l) /\ large q0 /\ ~ steep r q0
      | Cast inside true => (inside = false /\ exists i0 q0, In (i0, q0) ((i, q) :: l) /\ large q0 /\ touches r q0) \/
          (inside = Nat.odd (length (List.filter (counted r) ((i, q) :: l)) + n) /\
           forall i0 q0, In (i0, q0) ((i, q) :: l) -> large q0 -> (exists t, crosses r q0 t) <-> counted r (i0, q0) = true)
      | Cast inside false => inside = false /\ exists i0 q0, In (i0, q0) ((i, q) :: l) /\ large q0 /\ grazes r q0
      end).
    { intros n' En Hq. specialize (IH n'). destruct (closed_loop r l n') as [inside [ | ] | ].
      - destruct IH as [(E & j & p & Hin & H) | (E & H)].
        + left. split; [exact E | ]. exists j, p. split; [right; exact Hin | exact H].
        + right. split; [rewrite E, En; reflexivity | ]. intros j p [Ej | Hin] L; [injection Ej as <- <-; apply Hq, L | apply H; assumption].
      - destruct IH as (E & j & p & Hin & H). split; [exact E | ]. exists j, p. split; [right; exact Hin | exact H].
      - destruct IH as (j & p & Hin & H). exists j, p. split; [right; exact Hin | exact H]. }
    assert (Cn : counted r (i, q) = rltb (100 * zerotol) (tri_area q) && match ray_triangle r q with Hit _ _ _ _ => true | _ => false end) by reflexivity.
    destruct (rltb (100 * zerotol) (tri_area q)) eqn:A.
    + assert (L : large q) by (apply rltb_true, A). cbn [andb] in Cn.
      destruct (ray_triangle r q) as [ | | t u v back] eqn:E; cbn [kind] in K.
      * apply Skip; [cbn [List.filter]; rewrite Cn; reflexivity | ]. intros _. rewrite Cn. split; [intros (t & H); exfalso; destruct K as (_ & _ & _ & K); exact (K t H) | discriminate].
      * exists i, q. split; [left; reflexivity | auto].
      * destruct K as (B & K). destruct (rltb t zerotol) eqn:Et.
        -- left. split; [reflexivity | ]. exists i, q. split; [left; reflexivity | ]. split; [exact L | apply K].
        -- destruct (on_edge u v) eqn:Oe.
           ++ split; [reflexivity | ]. exists i, q. split; [left; reflexivity | ]. split; [exact L | apply K].
           ++ apply Skip; [cbn [List.filter]; rewrite Cn; cbn [length]; lia | ]. intros _. rewrite Cn. split; [reflexivity | ]. intros _.
              exists t. apply K. reflexivity.
    + cbn [andb] in Cn. apply Skip; [cbn [List.filter]; rewrite Cn; reflexivity | ].
      intros L. apply rltb_false in A. unfold large in L. lra.
Qed.

Lemma ray_candidates junk tris closed g r : (Z.of_nat (length tris) <= 2 ^ 30)%Z -> tris <> [] -> make_query junk tris closed = Some g ->
  g_closed g = closed /\
  exists c, candidates g (ray_box r) = Some c /\ NoDup (map fst c) /\ (forall i q, In (i, q) c -> nth_error tris i = Some q) /\
    (forall i q t, nth_error tris i = Some q -> crosses r q t -> In (i, q) c).
Proof.
  intros Hl Hn Eg. split.
  { destruct (make_query_ok junk tris closed Hl) as (g' & Eg' & _ & Ec & _). congruence. }
  destruct (candidates_ok junk tris closed g (ray_box r) (meets r) Hl Hn Eg) as (c & E & Hd & H1 & H2).
  - intros a b H (t & Ht & Hp). exists t. auto.
  - apply ray_box_complete.
  - exists c. split; [exact E | ]. split; [exact Hd | ]. split; [intros i q Hin; apply H1, Hin | ].
    intros i q t Hq Hc. apply H2; [exact Hq | eapply crosses_meets, Hc].
Qed.

Lemma closed_cast_ok junk tris g r : (Z.of_nat (length tris) <= 2 ^ 30)%Z -> tris <> [] -> make_query junk tris true = Some g ->
  match cast_ray g r with
  | CastUndefined => exists q, In q tris /\ large q /\ ~ steep r q
  | Cast inside true => (inside = false /\ exists q, In q tris /\ large q /\ touches r q) \/
      exists ids, NoDup ids /\ (forall i, In i ids <-> exists q t, nth_error tris i = Some q /\ large q /\ crosses r q t) /\
        inside = Nat.odd (length ids)
  | Cast inside false => inside = false /\ exists q, In q tris /\ large q /\ grazes r q
  end.
Proof.
  intros Hl Hn Eg. destruct (ray_candidates junk tris true g r Hl Hn Eg) as (Ec & c & E & Hd & H1 & H2).
  unfold cast_ray. rewrite E, Ec. pose proof (closed_loop_ok r c 0) as K. destruct (closed_loop r c 0) as [inside [ | ] | ].
  - destruct K as [(Ei & i & q & Hin & K) | (Ei & K)].
    + left. split; [exact Ei | ]. exists q. split; [eapply nth_error_In, H1, Hin | exact K].
    + right. exists (map fst (List.filter (counted r) c)). split; [ | split].
      * clear - Hd. induction c as [ | e c IH]; cbn [List.filter map]; [constructor | ]. inversion Hd as [ | ? ? N D]; subst.
        destruct (counted r e); [ | apply IH, D]. cbn [map]. constructor; [ | apply IH, D].
        intros K. apply N. apply in_map_iff in K. destruct K as (e' & Ee & K). apply filter_In in K. rewrite <- Ee. apply in_map, K.
      * intros i. rewrite in_map_iff. split.
        -- intros ([j q] & <- & Hin). apply filter_In in Hin. destruct Hin as [Hin Hc].
           assert (L : large q) by (unfold counted in Hc; apply andb_true_iff in Hc; apply rltb_true, (proj1 Hc)).
           apply (K j q Hin L) in Hc. destruct Hc as (t & Hc). exists q, t. auto.
        -- intros (q & t & Hq & L & Hc). exists (i, q). split; [reflexivity | ]. apply filter_In.
           pose proof (H2 i q t Hq Hc) as Hin. split; [exact Hin | ]. apply (K i q Hin L). exists t. exact Hc.
      * rewrite map_length, Ei, Nat.add_0_r. reflexivity.
  - destruct K as (Ei & i & q & Hin & K). split; [exact Ei | ]. exists q. split; [eapply nth_error_In, H1, Hin | exact K].
  - destruct K as (i & q & Hin & K). exists q. split; [eapply nth_error_In, H1, Hin | exact K].
Qed.

(** *** Casts through an open mesh *)
Lemma open_loop_ok r l : forall dist inside,
  match open_loop r l dist inside with
  | CastUndefined => False
  | Cast res true => (res = false /\ exists i q, In (i, q) l /\ touches r q) \/
      (res = inside /\ forall i q t, In (i, q) l -> crosses r q t -> dist <= t) \/
      (exists i q t, In (i, q) l /\ crosses r q t /\ t < dist /\ (res = true <-> 0 < dot (r_dir r) (normal_dir q)) /\
        forall i' q' t', In (i', q') l -> crosses r q' t' -> t <= t')
  | Cast res false => res = false /\ exists i q, In (i, q) l /\ grazes r q
  end.
Proof.
  induction l as [ | [i q] l IH]; intros dist inside; cbn [open_loop].
  - right. left. split; [reflexivity | intros ? ? ? []].
  - pose proof (kind_ok r q) as K.
    assert (Skip : (forall t, crosses r q t -> dist <= t) ->
      match open_loop r l dist inside with
      | CastUndefined => False
      | Cast res true => (res = false /\ exists i0 q0, In (i0, q0) ((i, q) :: l) /\ touches r q0) \/
          (res = inside /\ forall i0 q0 t, In (i0, q0) ((i, q) :: l) -> crosses r q0 t -> dist <= t) \/
          (exists i0 q0 t, In (i0, q0) ((i, q) :: l) /\ crosses r q0 t /\ t < dist /\ (res = true <-> 0 < dot (r_dir r) (normal_dir q0)) /\
            forall i' q' t', In (i', q') ((i, q) :: l) -> crosses r q' t' -> t <= t')
      | Cast res false => res = false /\ exists i0 q0, In (i0, q0) ((i, q) :: l) /\ grazes r q0
      end).
    { intros Hq. specialize (IH dist inside). destruct (open_loop r l dist inside) as [res [ | ] | ]; [ | | exact IH].
      - destruct IH as [(E & j & p & Hin & H) | [(E & H) | (j & p & t & Hin & H1 & H2 & H3 & H4)]].
        + left. split; [exact E | ]. exists j, p. split; [right; exact Hin | exact H].
        + right. left. split; [exact E | ]. intros j p t [Ej | Hin] Hc; [injection Ej as <- <-; apply Hq, Hc | apply (H j p t Hin Hc)].
        + right. right. exists j, p, t. split; [right; exact Hin | ]. split; [exact H1 | ]. split; [exact H2 | ]. split; [exact H3 | ].
          intros j' p' t' [Ej | Hin'] Hc; [injection Ej as <- <-; pose proof (Hq t' Hc); lra | apply (H4 j' p' t' Hin' Hc)].
      - destruct IH as (E & j & p & Hin & H). split; [exact E | ]. exists j, p. split; [right; exact Hin | exact H]. }
    destruct (ray_triangle r q) as [ | | t u v back] eqn:E; cbn [kind] in K.
    + apply Skip. intros t Hc. exfalso. destruct K as (_ & _ & _ & K). exact (K t Hc).
    + apply Skip. intros t (S & _). contradiction.
    + destruct K as (B & K). destruct (rltb t zerotol) eqn:Et.
      * left. split; [reflexivity | ]. exists i, q. split; [left; reflexivity | apply K].
      * destruct (on_edge u v) eqn:Oe.
        -- split; [reflexivity | ]. exists i, q. split; [left; reflexivity | apply K].
        -- destruct K as (_ & _ & K). destruct (rltb t dist) eqn:Ed.
           ++ apply rltb_true in Ed. specialize (IH t back). assert (Cq : crosses r q t) by (apply K; reflexivity).
              destruct (open_loop r l t back) as [res [ | ] | ]; [ | | exact IH].
              ** destruct IH as [(E' & j & p & Hin & H) | [(E' & H) | (j & p & t' & Hin & H1 & H2 & H3 & H4)]].
                 --- left. split; [exact E' | ]. exists j, p. split; [right; exact Hin | exact H].
                 --- right. right. exists i, q, t. split; [left; reflexivity | ]. split; [exact Cq | ]. split; [exact Ed | ]. split; [rewrite E'; exact B | ].
                     intros j p t' [Ej | Hin] Hc; [injection Ej as <- <-; apply K in Hc; lra | apply (H j p t' Hin Hc)].
                 --- right. right. exists j, p, t'. split; [right; exact Hin | ]. split; [exact H1 | ]. split; [lra | ]. split; [exact H3 | ].
                     intros j' p' t2 [Ej | Hin'] Hc; [injection Ej as <- <-; apply K in Hc; lra | apply (H4 j' p' t2 Hin' Hc)].
              ** destruct IH as (E' & j & p & Hin & H). split; [exact E' | ]. exists j, p. split; [right; exact Hin | exact H].
           ++ apply rltb_false in Ed. apply Skip. intros t' Hc. apply K in Hc. lra.
Qed.
Lemma open_cast_ok junk tris g r : (Z.of_nat (length tris) <= 2 ^ 30)%Z -> tris <> [] -> make_query junk tris false = Some g ->
  match cast_ray g r with
  | CastUndefined => False
  | Cast inside true => (inside = false /\ exists q, In q tris /\ touches r q) \/
      (inside = false /\ forall q t, In q tris -> crosses r q t -> maxd <= t) \/
      (exists q t, In q tris /\ crosses r q t /\ (inside = true <-> 0 < dot (r_dir r) (normal_dir q)) /\
        forall q' t', In q' tris -> crosses r q' t' -> t <= t')
  | Cast inside false => inside = false /\ exists q, In q tris /\ grazes r q
  end.
Proof.
  intros Hl Hn Eg. destruct (ray_candidates junk tris false g r Hl Hn Eg) as (Ec & c & E & Hd & H1 & H2).
  unfold cast_ray. rewrite E, Ec. pose proof (open_loop_ok r c maxd false) as K. destruct (open_loop r c maxd false) as [inside [ | ] | ].
  - destruct K as [(Ei & i & q & Hin & K) | [(Ei & K) | (i & q & t & Hin & K1 & K2 & K3 & K4)]].
    + left. split; [exact Ei | ]. exists q. split; [eapply nth_error_In, H1, Hin | exact K].
    + right. left. split; [exact Ei | ]. intros q t Hq Hc. apply In_nth_error in Hq. destruct Hq as (i & Hq). apply (K i q t); [eapply H2; eassumption | exact Hc].
    + right. right. exists q, t. split; [eapply nth_error_In, H1, Hin | ]. split; [exact K1 | ]. split; [exact K3 | ].
      intros q' t' Hq Hc. apply In_nth_error in Hq. destruct Hq as (j & Hq). apply (K4 j q' t'); [eapply H2; eassumption | exact Hc].
  - destruct K as (Ei & i & q & Hin & K). split; [exact Ei | ]. exists q. split; [eapply nth_error_In, H1, Hin | exact K].
  - contradiction.
Qed.

(** *** Votes *)
Definition succeeded (c : cast) : bool := match c with Cast _ true => true | _ => false end.
Definition said_inside (c : cast) : bool := match c with Cast true true => true | _ => false end.
Definition count {X} (f : X -> bool) (l : list X) : nat := length (List.filter f l).
Definition outcomes (g : gquery) (p : pt) (dirs : nat -> pt) (n : nat) : list cast := map (fun k => cast_ray g (Ray p (unit_dir (dirs k)))) (seq 0 n).
Lemma outcomes_S g p dirs n : outcomes g p dirs (S n) = cast_ray g (Ray p (unit_dir (dirs O))) :: outcomes g p (fun k => dirs (S k)) n.
Proof. unfold outcomes. cbn [seq map]. f_equal. rewrite <- seq_shift, map_map. reflexivity. Qed.

Lemma inside_loop_ok g p left : forall dirs s v, (s <= 5)%nat ->
  match inside_loop g p left dirs s v with
  | None => exists n, (n < left)%nat /\ nth_error (outcomes g p dirs (S n)) n = Some CastUndefined /\ (s + count succeeded (outcomes g p dirs n) < 5)%nat
  | Some true => exists n, (n <= left)%nat /\ ~ In CastUndefined (outcomes g p dirs n) /\ (s + count succeeded (outcomes g p dirs n) = 5)%nat /\
      (0 < v + 2 * Z.of_nat (count said_inside (outcomes g p dirs n)) - Z.of_nat (count succeeded (outcomes g p dirs n)))%Z
  | Some false =>
      (exists n, (n <= left)%nat /\ ~ In CastUndefined (outcomes g p dirs n) /\ (s + count succeeded (outcomes g p dirs n) = 5)%nat /\
        (v + 2 * Z.of_nat (count said_inside (outcomes g p dirs n)) - Z.of_nat (count succeeded (outcomes g p dirs n)) <= 0)%Z) \/
      (~ In CastUndefined (outcomes g p dirs left) /\ (s + count succeeded (outcomes g p dirs left) < 5)%nat)
  end.
Proof.
  induction left as [ | left IH]; intros dirs s v Hs; cbn [inside_loop].
  - destruct (s <? 5)%nat eqn:E.
    + apply Nat.ltb_lt in E. right. split; [intros [] | ]. cbn. lia.
    + apply Nat.ltb_ge in E. destruct (0 <? v)%Z eqn:Ev.
      * apply Z.ltb_lt in Ev. exists 0%nat. cbn. repeat split; try lia; auto.
      * apply Z.ltb_ge in Ev. left. exists 0%nat. cbn. repeat split; try lia; auto.
  - destruct (s <? 5)%nat eqn:E.
    + apply Nat.ltb_lt in E. set (c0 := cast_ray g (Ray p (unit_dir (dirs 0%nat)))) in *.
      assert (OS : forall n, outcomes g p dirs (S n) = c0 :: outcomes g p (fun k => dirs (S k)) n) by (intros n; apply outcomes_S).
      destruct c0 as [inside [ | ] | ] eqn:Ec.
      * specialize (IH (fun k => dirs (S k)) (S s) (vote inside v) ltac:(lia)).
        assert (Cs : forall l, count succeeded (Cast inside true :: l) = S (count succeeded l)) by reflexivity.
        assert (Ci : forall l, count said_inside (Cast inside true :: l) = ((if inside then 1 else 0) + count said_inside l)%nat) by (intros l; unfold count; cbn; destruct inside; reflexivity).
        destruct (inside_loop g p left (fun k => dirs (S k)) (S s) (vote inside v)) as [[ | ] | ].
        -- destruct IH as (n & H1 & H2 & H3 & H4). exists (S n). rewrite OS, Cs, Ci. split; [lia | ]. split; [intros [K | K]; [discriminate | exact (H2 K)] | ].
           split; [lia | ]. unfold vote in H4. destruct inside; lia.
        -- destruct IH as [(n & H1 & H2 & H3 & H4) | (H1 & H2)].
           ++ left. exists (S n). rewrite OS, Cs, Ci. split; [lia | ]. split; [intros [K | K]; [discriminate | exact (H2 K)] | ].
              split; [lia | ]. unfold vote in H4. destruct inside; lia.
           ++ right. rewrite OS, Cs. split; [intros [K | K]; [discriminate | exact (H1 K)] | lia].
        -- destruct IH as (n & H1 & H2 & H3). exists (S n). split; [lia | ]. split; [rewrite OS; exact H2 | ]. rewrite OS, Cs. lia.
      * specialize (IH (fun k => dirs (S k)) s v Hs).
        assert (Cs : forall l, count succeeded (Cast inside false :: l) = count succeeded l) by reflexivity.
        assert (Ci : forall l, count said_inside (Cast inside false :: l) = count said_inside l) by (intros l; unfold count; cbn; destruct inside; reflexivity).
        destruct (inside_loop g p left (fun k => dirs (S k)) s v) as [[ | ] | ].
        -- destruct IH as (n & H1 & H2 & H3 & H4). exists (S n). rewrite OS, Cs, Ci. split; [lia | ]. split; [intros [K | K]; [discriminate | exact (H2 K)] | ].
           split; [lia | exact H4].
        -- destruct IH as [(n & H1 & H2 & H3 & H4) | (H1 & H2)].
           ++ left. exists (S n). rewrite OS, Cs, Ci. split; [lia | ]. split; [intros [K | K]; [discriminate | exact (H2 K)] | ].
              split; [lia | exact H4].
           ++ right. rewrite OS, Cs. split; [intros [K | K]; [discriminate | exact (H1 K)] | exact H2].
        -- destruct IH as (n & H1 & H2 & H3). exists (S n). split; [lia | ]. split; [rewrite OS; exact H2 | ]. rewrite OS, Cs. lia.
      * exists 0%nat. split; [lia | ]. split; [rewrite OS; reflexivity | ]. cbn. lia.
    + apply Nat.ltb_ge in E. destruct (0 <? v)%Z eqn:Ev.
      * apply Z.ltb_lt in Ev. exists 0%nat. cbn. repeat split; try lia; auto.
      * apply Z.ltb_ge in Ev. left. exists 0%nat. cbn. repeat split; try lia; auto.
Qed.

Lemma inside_loop_ext g p left : forall dirs dirs' s v, (forall k, (k < left)%nat -> dirs k = dirs' k) ->
  inside_loop g p left dirs s v = inside_loop g p left dirs' s v.
Proof.
  induction left as [ | left IH]; intros dirs dirs' s v H; cbn [inside_loop]; [reflexivity | ].
  destruct (s <? 5)%nat; [ | reflexivity]. rewrite <- (H 0%nat) by lia.
  assert (Hs : forall k, (k < left)%nat -> dirs (S k) = dirs' (S k)) by (intros k K; apply H; lia).
  destruct (cast_ray g (Ray p (unit_dir (dirs 0%nat)))) as [i [ | ] | ]; [ | | reflexivity]; apply IH; exact Hs.
Qed.

(** The votes over the triangles of a clipped section. *)
Definition section_outcomes (g : gquery) (p : pt) (tol : R) (l : list (tri pt)) : list cast :=
  map (aimed_cast g p) (List.filter (is_target p tol) l).
Lemma aimed_defined junk tris g p q : (Z.of_nat (length tris) <= 2 ^ 30)%Z -> tris <> [] -> make_query junk tris false = Some g ->
  aimed_cast g p q <> CastUndefined.
Proof.
  intros Hl Hn Eg. unfold aimed_cast. destruct (centred p q).
  - destruct (candidates_ok junk tris false g (fun _ => true) (fun _ => True) Hl Hn Eg) as (c & -> & _); auto. discriminate.
  - intros E. pose proof (open_cast_ok junk tris g (Ray p (unit_dir (vsub (tri_center q) p))) Hl Hn Eg) as K. rewrite E in K. exact K.
Qed.
Lemma section_loop_ok g p tol : (forall q, aimed_cast g p q <> CastUndefined) -> forall tris s v, (s <= 10)%nat ->
  exists res pre rest, section_loop g p tol tris s v = Some res /\ tris = pre ++ rest /\
    (s + count succeeded (section_outcomes g p tol pre) <= 10)%nat /\
    (rest = [] \/ (s + count succeeded (section_outcomes g p tol pre) = 10)%nat) /\
    (res = true <-> (0 < v + 2 * Z.of_nat (count said_inside (section_outcomes g p tol pre)) - Z.of_nat (count succeeded (section_outcomes g p tol pre)))%Z).
Proof.
  intros Hdef. induction tris as [ | q tris IH]; intros s v Hs; cbn [section_loop].
  - exists (0 <? v)%Z, [], []. split; [reflexivity | ]. split; [reflexivity | ]. cbn. split; [lia | ]. split; [auto | ]. rewrite Z.ltb_lt. lia.
  - destruct (s <? 10)%nat eqn:E.
    + apply Nat.ltb_lt in E. destruct (is_target p tol q) eqn:El.
      * assert (OS : forall pre, section_outcomes g p tol (q :: pre) = aimed_cast g p q :: section_outcomes g p tol pre)
          by (intros pre; unfold section_outcomes; cbn [List.filter]; rewrite El; reflexivity).
        pose proof (Hdef q) as Hd.
        destruct (aimed_cast g p q) as [inside [ | ] | ]; [ | | congruence].
        -- assert (Cs : forall l, count succeeded (Cast inside true :: l) = S (count succeeded l)) by reflexivity.
           assert (Ci : forall l, count said_inside (Cast inside true :: l) = ((if inside then 1 else 0) + count said_inside l)%nat) by (intros l; unfold count; cbn; destruct inside; reflexivity).
           destruct (IH (S s) (vote inside v)) as (res & pre & rest & H1 & H2 & H3 & H4 & H5); [lia | ].
           exists res, (q :: pre), rest. rewrite OS, Cs, Ci. split; [exact H1 | ]. split; [cbn; congruence | ]. split; [lia | ].
           split; [destruct H4; [left; assumption | right; lia] | ]. rewrite H5. unfold vote. destruct inside; lia.
        -- assert (Cs : forall l, count succeeded (Cast inside false :: l) = count succeeded l) by reflexivity.
           assert (Ci : forall l, count said_inside (Cast inside false :: l) = count said_inside l) by (intros l; unfold count; cbn; destruct inside; reflexivity).
           destruct (IH s v Hs) as (res & pre & rest & H1 & H2 & H3 & H4 & H5).
           exists res, (q :: pre), rest. rewrite OS, Cs, Ci. split; [exact H1 | ]. split; [cbn; congruence | ]. auto.
      * assert (OS : forall pre, section_outcomes g p tol (q :: pre) = section_outcomes g p tol pre)
          by (intros pre; unfold section_outcomes; cbn [List.filter]; rewrite El; reflexivity).
        destruct (IH s v Hs) as (res & pre & rest & H1 & H2 & H3 & H4 & H5).
        exists res, (q :: pre), rest. rewrite OS. split; [exact H1 | ]. split; [cbn; congruence | ]. auto.
    + apply Nat.ltb_ge in E. exists (0 <? v)%Z, [], (q :: tris). split; [reflexivity | ]. split; [reflexivity | ]. cbn. split; [lia | ].
      split; [right; lia | ]. rewrite Z.ltb_lt. lia.
Qed.
