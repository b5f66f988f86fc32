(** Proofs about rays: ray/box and ray/triangle tests, ray casts and the votes. *)
From Coq Require Import Reals Lra Psatz List Arith Bool ZArith Lia Permutation.
From Verif Require Import Geo MappingModel TrimmedQuadModel MeshModel MeshGeoModel StlModel SearchModel SearchProofs SearchInsert SearchQuery SearchProps GeoQueryModel SatMain GeoQueryProofs.
Import ListNotations.
Local Open Scope R_scope.

(** *** Specification *)
(** The point of a ray at parameter t; the ray meets a box. *)
Definition along (r : ray) (t : R) : pt := vadd (r_origin r) (vscale t (r_dir r)).
Definition meets (r : ray) (b : rbox) : Prop := exists t, 0 <= t /\ point_in RA (vec_of (along r t)) b.

(** *** Extended numbers *)
(** a <= b where no NaN is involved. *)
Definition ele (a b : ext) : Prop :=
  match a, b with
  | NaN, _ | _, NaN => False
  | MInf, _ => True | _, PInf => True
  | Fin x, Fin y => x <= y
  | _, _ => False
  end.
Lemma eltb_false a b : a <> NaN -> b <> NaN -> (eltb a b = false <-> ele b a).
Proof.
  destruct a, b; cbn; intros; try (split; intros; congruence); try tauto; try (split; [discriminate | tauto]).
  rewrite rltb_false. reflexivity.
Qed.
Lemma eltb_true a b : eltb a b = true -> a <> NaN /\ b <> NaN /\ ~ ele b a.
Proof.
  destruct a, b; cbn; intros H; try discriminate; (split; [discriminate | ]); (split; [discriminate | ]); try tauto.
  apply rltb_true in H. lra.
Qed.

(** The parameters at which the ray enters and leaves the slab of one axis. *)
Definition low_t (o d l u : R) : ext := emul ((if neg_sign d then u else l) - o) (einv d).
Definition up_t (o d l u : R) : ext := emul ((if negb (neg_sign d) then u else l) - o) (einv d).
Lemma neg_sign_spec d : neg_sign d = true <-> d < 0.
Proof.
  unfold neg_sign, einv. destruct (Req_EM_T d 0) as [-> | N]; cbn.
  - split; [discriminate | lra].
  - rewrite rltb_true. split; intros H.
    + destruct (Rlt_dec d 0) as [ | H']; [assumption | ]. assert (0 < d) by lra. apply Rinv_0_lt_compat in H0. lra.
    + apply Rinv_lt_0_compat, H.
Qed.

(** Membership in the slab, if NaN does not occur. *)
Lemma slab_ok o d l u t : l <= u -> (d = 0 -> o <> l /\ o <> u) ->
  low_t o d l u <> NaN /\ up_t o d l u <> NaN /\ ele (low_t o d l u) (up_t o d l u) /\
  (l <= o + t * d <= u <-> ele (low_t o d l u) (Fin t) /\ ele (Fin t) (up_t o d l u)).
Proof.
  intros Hlu Hz. unfold low_t, up_t. destruct (neg_sign d) eqn:E; cbn [negb].
  - apply neg_sign_spec in E. unfold einv. destruct (Req_EM_T d 0) as [ | N]; [lra | ]. cbn.
    split; [discriminate | ]. split; [discriminate | ].
    assert (I : d * / d = 1) by (field; exact N). assert (In : / d < 0) by (apply Rinv_lt_0_compat, E).
    split; [nra | ]. split.
    + intros [H1 H2]. split.
      * apply (Rmult_le_reg_l (- d)); [lra | ]. replace (- d * ((u - o) * / d)) with (- (u - o) * (d * / d)) by ring. rewrite I. nra.
      * apply (Rmult_le_reg_l (- d)); [lra | ]. replace (- d * ((l - o) * / d)) with (- (l - o) * (d * / d)) by ring. rewrite I. nra.
    + intros [H1 H2]. apply (Rmult_le_compat_neg_l d) in H1; [ | lra]. apply (Rmult_le_compat_neg_l d) in H2; [ | lra].
      replace (d * ((u - o) * / d)) with ((u - o) * (d * / d)) in H1 by ring. replace (d * ((l - o) * / d)) with ((l - o) * (d * / d)) in H2 by ring.
      rewrite I in *. lra.
  - assert (Hd : 0 <= d) by (destruct (Rlt_dec d 0) as [H | H]; [apply neg_sign_spec in H; congruence | lra]).
    unfold einv. destruct (Req_EM_T d 0) as [Z | N].
    + specialize (Hz Z). cbn. rewrite Z.
      destruct (Rlt_dec 0 (l - o)); destruct (Rlt_dec 0 (u - o)); destruct (Rlt_dec (l - o) 0); destruct (Rlt_dec (u - o) 0);
        try lra; cbn; (split; [discriminate | split; [discriminate | split; [lra || exact I | ]]]); split; intros; try lra; try tauto.
    + assert (Pd : 0 < d) by lra. cbn. split; [discriminate | ]. split; [discriminate | ].
      assert (I : d * / d = 1) by (field; exact N). assert (In : 0 < / d) by (apply Rinv_0_lt_compat, Pd).
      split; [nra | ]. split.
      * intros [H1 H2]. split.
        -- apply (Rmult_le_reg_l d); [lra | ]. replace (d * ((l - o) * / d)) with ((l - o) * (d * / d)) by ring. rewrite I. lra.
        -- apply (Rmult_le_reg_l d); [lra | ]. replace (d * ((u - o) * / d)) with ((u - o) * (d * / d)) by ring. rewrite I. lra.
      * intros [H1 H2]. apply (Rmult_le_compat_l d) in H1; [ | lra]. apply (Rmult_le_compat_l d) in H2; [ | lra].
        replace (d * ((l - o) * / d)) with ((l - o) * (d * / d)) in H1 by ring. replace (d * ((u - o) * / d)) with ((u - o) * (d * / d)) in H2 by ring.
        rewrite I in *. lra.
Qed.
(** In any case: a parameter in the slab is between those that are not NaN. *)
Lemma slab_in o d l u t : l <= o + t * d <= u ->
  (low_t o d l u = NaN \/ ele (low_t o d l u) (Fin t)) /\ (up_t o d l u = NaN \/ ele (Fin t) (up_t o d l u)) /\
  (d <> 0 -> low_t o d l u <> NaN /\ exists x, low_t o d l u = Fin x) /\
  (d = 0 -> low_t o d l u = NaN \/ low_t o d l u = MInf).
Proof.
  intros Ht. destruct (Req_dec d 0) as [Z | N].
  - subst d. unfold low_t, up_t. assert (E : neg_sign 0 = false) by (destruct (neg_sign 0) eqn:E; [apply neg_sign_spec in E; lra | reflexivity]).
    rewrite E. unfold einv. destruct (Req_EM_T 0 0) as [_ | ]; [ | congruence]. cbn.
    destruct (Rlt_dec 0 (l - o)); destruct (Rlt_dec 0 (u - o)); destruct (Rlt_dec (l - o) 0); destruct (Rlt_dec (u - o) 0); cbn; try lra; repeat split; intros; auto; try congruence; lra.
  - destruct (slab_ok o d l u t) as (H1 & H2 & H3 & H4); [lra | congruence | ]. apply H4 in Ht. destruct Ht as [K1 K2].
    split; [auto | ]. split; [auto | ]. split; [ | congruence]. intros _. split; [exact H1 | ].
    unfold low_t, einv in *. destruct (Req_EM_T d 0); [congruence | ]. eexists. reflexivity.
Qed.

(** *** Ray and box *)
Definition slab_answer (ax bx ay by_ az bz : ext) : bool :=
  if eltb by_ ax then false
  else if eltb bx ay then false
  else
    let tmin := emax ax ay in
    let tmax := emin bx by_ in
    if eltb tmax az then false
    else if eltb bz tmin then false
    else if eltb (if eltb tmin az then az else tmin) (Fin 0) then false else true.
Lemma ray_box_slabs r b : ray_box r b =
  if within_bounds RA b (vec_of (r_origin r)) then true
  else slab_answer
    (low_t (px (r_origin r)) (px (r_dir r)) (vx (lo RA b)) (vx (up RA b))) (up_t (px (r_origin r)) (px (r_dir r)) (vx (lo RA b)) (vx (up RA b)))
    (low_t (py (r_origin r)) (py (r_dir r)) (vy (lo RA b)) (vy (up RA b))) (up_t (py (r_origin r)) (py (r_dir r)) (vy (lo RA b)) (vy (up RA b)))
    (low_t (pz (r_origin r)) (pz (r_dir r)) (vz (lo RA b)) (vz (up RA b))) (up_t (pz (r_origin r)) (pz (r_dir r)) (vz (lo RA b)) (vz (up RA b))).
Proof.
  unfold ray_box. assert (E : positive_dir r = true -> neg_sign (px (r_dir r)) = false /\ neg_sign (py (r_dir r)) = false /\ neg_sign (pz (r_dir r)) = false).
  { unfold positive_dir. rewrite negb_true_iff, !orb_false_iff, !negb_false_iff, !rltb_true. intros [[H1 H2] H3].
    assert (G : forall d, 0 < d -> neg_sign d = false) by (intros d H; destruct (neg_sign d) eqn:E; [apply neg_sign_spec in E; lra | reflexivity]).
    auto. }
  destruct (positive_dir r); [destruct (E eq_refl) as (E1 & E2 & E3) | ]; unfold slab_test, slab_answer, low_t, up_t; [rewrite E1, E2, E3 | ]; reflexivity.
Qed.

Lemma within_point b p : within_bounds RA b p = true <-> point_in RA p b.
Proof.
  unfold within_bounds, point_in. rewrite negb_true_iff, !orb_false_iff. unfold leq. tauto.
Qed.
Lemma point_along r b t : point_in RA (vec_of (along r t)) b <->
  (vx (lo RA b) <= px (r_origin r) + t * px (r_dir r) <= vx (up RA b)) /\
  (vy (lo RA b) <= py (r_origin r) + t * py (r_dir r) <= vy (up RA b)) /\
  (vz (lo RA b) <= pz (r_origin r) + t * pz (r_dir r) <= vz (up RA b)).
Proof. unfold point_in, along. rewrite !leq_RA. cbn [vec_of vx vy vz vadd vscale px py pz]. reflexivity. Qed.
Lemma point_origin r b : point_in RA (vec_of (r_origin r)) b <->
  (vx (lo RA b) <= px (r_origin r) <= vx (up RA b)) /\ (vy (lo RA b) <= py (r_origin r) <= vy (up RA b)) /\
  (vz (lo RA b) <= pz (r_origin r) <= vz (up RA b)).
Proof. unfold point_in. rewrite !leq_RA. cbn [vec_of vx vy vz]. reflexivity. Qed.

(** A common parameter, and one of the lower parameters is not negative (or the first one is NaN). *)
Definition nan_or (P : ext -> Prop) (a : ext) : Prop := a = NaN \/ P a.
Definition larger (a b : ext) : ext := if eltb a b then b else a.
Lemma larger_l x a b : nan_or (ele (Fin x)) a -> nan_or (ele (Fin x)) (larger a b).
Proof.
  intros [-> | H]; [left; reflexivity | ]. unfold larger. destruct (eltb a b) eqn:E; [ | right; exact H].
  right. destruct a, b; cbn in *; try discriminate; try contradiction; auto. apply rltb_true in E. lra.
Qed.
Lemma larger_r x a b : b = Fin x -> nan_or (ele (Fin x)) (larger a b).
Proof.
  intros ->. unfold larger. destruct (eltb a (Fin x)) eqn:E; [right; cbn; lra | ].
  destruct a; cbn in *; try discriminate; try (right; exact I); [right; apply rltb_false in E; exact E | left; reflexivity].
Qed.
Lemma answer_complete ax bx ay by_ az bz t :
  nan_or (fun a => ele a (Fin t)) ax -> nan_or (ele (Fin t)) bx -> nan_or (fun a => ele a (Fin t)) ay -> nan_or (ele (Fin t)) by_ ->
  nan_or (fun a => ele a (Fin t)) az -> nan_or (ele (Fin t)) bz ->
  (exists x, 0 <= x /\ (ax = Fin x \/ ay = Fin x \/ az = Fin x)) ->
  slab_answer ax bx ay by_ az bz = true.
Proof.
  intros Ax Bx Ay By Az Bz (x & X & H). unfold slab_answer.
  assert (T : forall a b, nan_or (fun a => ele a (Fin t)) a -> nan_or (ele (Fin t)) b -> eltb b a = false).
  { intros a b [-> | Ha] [-> | Hb]; try reflexivity; try (destruct b; reflexivity).
    destruct a, b; cbn in *; try reflexivity; try contradiction. apply rltb_false. lra. }
  rewrite (T ax by_ Ax By), (T ay bx Ay Bx).
  assert (Mx : nan_or (fun a => ele a (Fin t)) (emax ax ay)) by (unfold emax; destruct (eltb ax ay); assumption).
  assert (Mn : nan_or (ele (Fin t)) (emin bx by_)) by (unfold emin; destruct (eltb by_ bx); assumption).
  rewrite (T az _ Az Mn), (T _ bz Mx Bz).
  fold (larger ax ay) in *. change (emax ax ay) with (larger ax ay). fold (larger (larger ax ay) az).
  assert (Hm : nan_or (ele (Fin x)) (larger (larger ax ay) az)).
  { destruct H as [H | [H | H]].
    - apply larger_l, larger_l. right. rewrite H. cbn. lra.
    - apply larger_l, larger_r, H.
    - apply larger_r, H. }
  destruct Hm as [-> | Hm]; [reflexivity | ].
  destruct (larger (larger ax ay) az) as [y | | | ]; cbn in *; try contradiction; auto.
  assert (E : rltb y 0 = false) by (apply rltb_false; lra). rewrite E. reflexivity.
Qed.

Lemma ray_box_complete r b : meets r b -> ray_box r b = true.
Proof.
  intros (t & Ht & Hp). rewrite ray_box_slabs. destruct (within_bounds RA b (vec_of (r_origin r))) eqn:W; [reflexivity | ].
  assert (NW : ~ point_in RA (vec_of (r_origin r)) b) by (rewrite <- within_point; congruence). rewrite point_origin in NW.
  apply point_along in Hp. destruct Hp as (HX & HY & HZ).
  destruct (slab_in _ _ _ _ _ HX) as (X1 & X2 & X3 & X4). destruct (slab_in _ _ _ _ _ HY) as (Y1 & Y2 & Y3 & Y4).
  destruct (slab_in _ _ _ _ _ HZ) as (Z1 & Z2 & Z3 & Z4).
  apply (answer_complete _ _ _ _ _ _ t); try assumption.
  (* otherwise the origin would be inside *)
  assert (G : forall o d l u, l <= o + t * d <= u -> l <= o <= u \/ exists x, 0 <= x /\ low_t o d l u = Fin x).
  { intros o d l u H. destruct (slab_in o d l u t H) as (K1 & K2 & K3 & K4).
    destruct (Req_dec d 0) as [Z | N]; [left; subst d; lra | ]. destruct (K3 N) as (N1 & x & E).
    destruct (Rle_dec 0 x) as [ | Hx]; [right; exists x; auto | left].
    destruct (slab_ok o d l u 0) as (S1 & S2 & S3 & S4); [lra | congruence | ]. replace (o + 0 * d) with o in S4 by ring. apply S4.
    rewrite E. split; [cbn; lra | ].
    destruct K2 as [K2 | K2]; [congruence | ]. destruct (up_t o d l u); cbn in *; try contradiction; auto. lra. }
  destruct (G _ _ _ _ HX) as [GX | (x & Hx & E)]; [ | exists x; auto].
  destruct (G _ _ _ _ HY) as [GY | (x & Hx & E)]; [ | exists x; auto].
  destruct (G _ _ _ _ HZ) as [GZ | (x & Hx & E)]; [ | exists x; auto].
  exfalso. tauto.
Qed.

Lemma ele_trans a b c : ele a b -> ele b c -> ele a c.
Proof. destruct a, b, c; cbn; try tauto. lra. Qed.
Lemma larger_max a b : a <> NaN -> b <> NaN -> larger a b <> NaN /\ ele a (larger a b) /\ ele b (larger a b) /\ (larger a b = a \/ larger a b = b).
Proof.
  intros Ha Hb. unfold larger. destruct (eltb a b) eqn:E.
  - split; [exact Hb | ]. split; [ | split; [destruct b; cbn; auto; try lra; congruence | auto]].
    destruct a, b; cbn in *; try congruence; auto. apply rltb_true in E. lra.
  - apply eltb_false in E; [ | assumption ..]. split; [exact Ha | ]. split; [destruct a; cbn; auto; try lra; congruence | ]. auto.
Qed.
Lemma smaller_min a b : a <> NaN -> b <> NaN -> emin a b <> NaN /\ ele (emin a b) a /\ ele (emin a b) b.
Proof.
  intros Ha Hb. unfold emin. destruct (eltb b a) eqn:E.
  - split; [exact Hb | ]. split; [ | destruct b; cbn; auto; try lra; congruence].
    destruct a, b; cbn in *; try congruence; auto. apply rltb_true in E. lra.
  - apply eltb_false in E; [ | assumption ..]. split; [exact Ha | ]. split; [destruct a; cbn; auto; try lra; congruence | ]. exact E.
Qed.

(** No component of the origin is on a face that is parallel to the ray. *)
Definition off_faces (r : ray) (b : rbox) : Prop :=
  (px (r_dir r) = 0 -> px (r_origin r) <> vx (lo RA b) /\ px (r_origin r) <> vx (up RA b)) /\
  (py (r_dir r) = 0 -> py (r_origin r) <> vy (lo RA b) /\ py (r_origin r) <> vy (up RA b)) /\
  (pz (r_dir r) = 0 -> pz (r_origin r) <> vz (lo RA b) /\ pz (r_origin r) <> vz (up RA b)).
Lemma up_finite o d l u : d <> 0 -> exists x, up_t o d l u = Fin x.
Proof. intros N. unfold up_t, einv. destruct (Req_EM_T d 0); [congruence | ]. eexists. reflexivity. Qed.
Lemma ray_box_sound r b : proper RA b -> r_dir r <> Pt 0 0 0 -> off_faces r b -> ray_box r b = true -> meets r b.
Proof.
  intros (P1 & P2 & P3) Nd (F1 & F2 & F3) H. apply leq_RA in P1, P2, P3. rewrite ray_box_slabs in H.
  destruct (within_bounds RA b (vec_of (r_origin r))) eqn:W.
  - exists 0. split; [lra | ]. apply within_point in W. rewrite point_origin in W. rewrite point_along. lra.
  - pose proof (fun t => slab_ok _ _ _ _ t P1 F1) as SX. pose proof (fun t => slab_ok _ _ _ _ t P2 F2) as SY. pose proof (fun t => slab_ok _ _ _ _ t P3 F3) as SZ.
    set (ax := low_t (px (r_origin r)) _ _ _) in *. set (bx := up_t (px (r_origin r)) _ _ _) in *.
    set (ay := low_t (py (r_origin r)) _ _ _) in *. set (by_ := up_t (py (r_origin r)) _ _ _) in *.
    set (az := low_t (pz (r_origin r)) _ _ _) in *. set (bz := up_t (pz (r_origin r)) _ _ _) in *.
    destruct (SX 0) as (AX1 & BX1 & OX & _). destruct (SY 0) as (AY1 & BY1 & OY & _). destruct (SZ 0) as (AZ1 & BZ1 & OZ & _).
    unfold slab_answer in H.
    destruct (eltb by_ ax) eqn:E1; [discriminate | ]. destruct (eltb bx ay) eqn:E2; [discriminate | ].
    change (emax ax ay) with (larger ax ay) in H. fold (larger (larger ax ay) az) in H.
    destruct (larger_max ax ay AX1 AY1) as (M1 & M2 & M3 & M4). destruct (smaller_min bx by_ BX1 BY1) as (N1 & N2 & N3).
    destruct (eltb (emin bx by_) az) eqn:E3; [discriminate | ]. destruct (eltb bz (larger ax ay)) eqn:E4; [discriminate | ].
    destruct (larger_max (larger ax ay) az M1 AZ1) as (L1 & L2 & L3 & L4).
    destruct (eltb (larger (larger ax ay) az) (Fin 0)) eqn:E5; [discriminate | ]. clear H.
    apply eltb_false in E1, E2, E3, E4, E5; try assumption; try discriminate.
    set (m := larger (larger ax ay) az) in *. clearbody m.
    assert (B1 : ele m bx /\ ele m by_ /\ ele m bz).
    { destruct L4 as [L4 | L4]; rewrite L4.
      - destruct M4 as [M4 | M4]; rewrite M4 in *; (split; [ | split]); assumption.
      - split; [exact (ele_trans _ _ _ E3 N2) | split; [exact (ele_trans _ _ _ E3 N3) | exact OZ]]. }
    destruct B1 as (B1 & B2 & B3).
    assert (Fm : exists t, m = Fin t /\ 0 <= t).
    { destruct m as [t | | | ]; cbn in E5; try contradiction; [exists t; auto | ]. exfalso.
      assert (Hd : px (r_dir r) <> 0 \/ py (r_dir r) <> 0 \/ pz (r_dir r) <> 0).
      { destruct (Req_dec (px (r_dir r)) 0) as [Z1 | ]; [ | auto]. destruct (Req_dec (py (r_dir r)) 0) as [Z2 | ]; [ | auto].
        destruct (Req_dec (pz (r_dir r)) 0) as [Z3 | ]; [ | auto]. exfalso. apply Nd. destruct (r_dir r). cbn in *. congruence. }
      destruct Hd as [Hd | [Hd | Hd]].
      - destruct (up_finite (px (r_origin r)) (px (r_dir r)) (vx (lo RA b)) (vx (up RA b)) Hd) as (x & E). fold bx in E. rewrite E in B1. exact B1.
      - destruct (up_finite (py (r_origin r)) (py (r_dir r)) (vy (lo RA b)) (vy (up RA b)) Hd) as (x & E). fold by_ in E. rewrite E in B2. exact B2.
      - destruct (up_finite (pz (r_origin r)) (pz (r_dir r)) (vz (lo RA b)) (vz (up RA b)) Hd) as (x & E). fold bz in E. rewrite E in B3. exact B3. }
    destruct Fm as (t & Em & Ht). exists t. split; [exact Ht | ]. rewrite point_along.
    assert (A1 : ele ax m) by (eapply ele_trans; eassumption). assert (A2 : ele ay m) by (eapply ele_trans; eassumption).
    rewrite Em in *. split; [ | split].
    + destruct (SX t) as (_ & _ & _ & S). apply S. auto.
    + destruct (SY t) as (_ & _ & _ & S). apply S. auto.
    + destruct (SZ t) as (_ & _ & _ & S). apply S. auto.
Qed.

(** *** Ray and triangle *)
Definition normal_dir (q : tri pt) : pt := cross (vsub (P2 q) (P1 q)) (vsub (P3 q) (P1 q)).
(** The point of the plane of the triangle with coordinates u, v. *)
Definition plane_point (q : tri pt) (u v : R) : pt := vadd (P1 q) (vadd (vscale u (vsub (P2 q) (P1 q))) (vscale v (vsub (P3 q) (P1 q)))).
Definition det_of (r : ray) (q : tri pt) : R := dot (vsub (P2 q) (P1 q)) (cross (r_dir r) (vsub (P3 q) (P1 q))).
Lemma det_normal r q : det_of r q = - dot (r_dir r) (normal_dir q).
Proof. unfold det_of, normal_dir, dot, cross, vsub. cbn [px py pz]. ring. Qed.
Definition bary (r : ray) (q : tri pt) : R * R * R :=
  let v0v1 := vsub (P2 q) (P1 q) in let v0v2 := vsub (P3 q) (P1 q) in let tvec := vsub (r_origin r) (P1 q) in
  (dot v0v2 (cross tvec v0v1) * (1 / det_of r q), dot tvec (cross (r_dir r) v0v2) * (1 / det_of r q), dot (r_dir r) (cross tvec v0v1) * (1 / det_of r q)).
Lemma bary_ok r q : det_of r q <> 0 -> let '(t, u, v) := bary r q in along r t = plane_point q u v.
Proof.
  intros D. unfold bary, along, plane_point. cbv zeta. cbn beta iota.
  set (d := det_of r q) in *. assert (Ed : d = det_of r q) by reflexivity. clearbody d. unfold det_of, dot, cross, vsub in Ed. cbn [px py pz] in Ed.
  unfold vadd, vscale, vsub, dot, cross. cbn [px py pz].
  f_equal; apply (Rmult_eq_reg_l d); try exact D; field_simplify; try exact D; rewrite Ed; ring.
Qed.
Lemma bary_unique r q t u v : det_of r q <> 0 -> along r t = plane_point q u v -> bary r q = (t, u, v).
Proof.
  intros D E. unfold along, plane_point, vadd, vscale, vsub in E. cbn [px py pz] in E. injection E as E1 E2 E3.
  unfold bary. cbv zeta.
  assert (O1 : px (r_origin r) = px (P1 q) + (u * (px (P2 q) - px (P1 q)) + v * (px (P3 q) - px (P1 q))) - t * px (r_dir r)) by lra.
  assert (O2 : py (r_origin r) = py (P1 q) + (u * (py (P2 q) - py (P1 q)) + v * (py (P3 q) - py (P1 q))) - t * py (r_dir r)) by lra.
  assert (O3 : pz (r_origin r) = pz (P1 q) + (u * (pz (P2 q) - pz (P1 q)) + v * (pz (P3 q) - pz (P1 q))) - t * pz (r_dir r)) by lra.
  f_equal; [f_equal | ]; apply (Rmult_eq_reg_r (det_of r q)); try exact D; unfold Rdiv; rewrite Rmult_1_l, Rmult_assoc, Rinv_l, Rmult_1_r by exact D;
    unfold det_of, dot, cross, vsub; cbn [px py pz]; rewrite O1, O2, O3; ring.
Qed.

Definition accurate (t u v : R) : Prop := - zerotol <= t /\ - zerotol <= u /\ - zerotol <= v /\ u + v <= 1 + zerotol.
Lemma zerotol_pos : 0 < zerotol.
Proof. unfold zerotol. apply Rinv_0_lt_compat. apply pow_lt. lra. Qed.
Lemma ray_triangle_ok r q :
  (ray_triangle r q = Parallel <-> Rabs (dot (r_dir r) (normal_dir q)) < 10 * zerotol) /\
  (forall t u v back, ray_triangle r q = Hit t u v back <->
    10 * zerotol <= Rabs (dot (r_dir r) (normal_dir q)) /\ along r t = plane_point q u v /\ accurate t u v /\ u <= 1 + zerotol /\
    (back = true <-> 0 < dot (r_dir r) (normal_dir q))).
Proof.
  pose proof zerotol_pos as Zp. pose proof (det_normal r q) as Dn.
  assert (Ab : Rabs (det_of r q) = Rabs (dot (r_dir r) (normal_dir q))) by (rewrite Dn; apply Rabs_Ropp).
  rewrite <- Ab. unfold ray_triangle. fold (det_of r q). cbv zeta.
  destruct (rltb (Rabs (det_of r q)) (10 * zerotol)) eqn:E.
  - apply rltb_true in E. split; [split; auto | ]. intros t u v back. split; [discriminate | ]. intros (H & _). lra.
  - apply rltb_false in E. assert (D : det_of r q <> 0) by (intros H; rewrite H, Rabs_R0 in E; lra).
    pose proof (bary_ok r q D) as B. pose proof (bary_unique r q) as U. unfold bary in B, U. cbv zeta in B, U.
    set (t0 := dot (vsub (P3 q) (P1 q)) (cross (vsub (r_origin r) (P1 q)) (vsub (P2 q) (P1 q))) * (1 / det_of r q)) in *.
    set (u0 := dot (vsub (r_origin r) (P1 q)) (cross (r_dir r) (vsub (P3 q) (P1 q))) * (1 / det_of r q)) in *.
    set (v0 := dot (r_dir r) (cross (vsub (r_origin r) (P1 q)) (vsub (P2 q) (P1 q))) * (1 / det_of r q)) in *.
    assert (Bk : rltb (det_of r q) zerotol = true <-> 0 < dot (r_dir r) (normal_dir q)).
    { rewrite rltb_true. unfold Rabs in E. destruct (Rcase_abs (det_of r q)); lra. }
    split.
    + split; [ | lra]. repeat match goal with |- context [if ?c then _ else _] => destruct c end; discriminate.
    + intros t u v back. unfold accurate.
      destruct (rltb u0 (- zerotol)) eqn:E1; cbn [orb].
      { apply rltb_true in E1. split; [discriminate | ]. intros (K1 & K2 & K3 & K4 & K5). specialize (U _ _ _ D K2). injection U as U1 U2 U3. lra. }
      apply rltb_false in E1. destruct (rltb (1 + zerotol) u0) eqn:E2.
      { apply rltb_true in E2. split; [discriminate | ]. intros (K1 & K2 & K3 & K4 & K5). specialize (U _ _ _ D K2). injection U as U1 U2 U3. lra. }
      apply rltb_false in E2. destruct (rltb v0 (- zerotol)) eqn:E3; cbn [orb].
      { apply rltb_true in E3. split; [discriminate | ]. intros (K1 & K2 & K3 & K4 & K5). specialize (U _ _ _ D K2). injection U as U1 U2 U3. lra. }
      apply rltb_false in E3. destruct (rltb (1 + zerotol) (u0 + v0)) eqn:E4.
      { apply rltb_true in E4. split; [discriminate | ]. intros (K1 & K2 & K3 & K4 & K5). specialize (U _ _ _ D K2). injection U as U1 U2 U3. lra. }
      apply rltb_false in E4. destruct (rltb t0 (- zerotol)) eqn:E5.
      { apply rltb_true in E5. split; [discriminate | ]. intros (K1 & K2 & K3 & K4 & K5). specialize (U _ _ _ D K2). injection U as U1 U2 U3. lra. }
      apply rltb_false in E5. split.
      * intros H. injection H as <- <- <- <-. repeat split; try lra; try exact B; apply Bk.
      * intros (K1 & K2 & K3 & K4 & K5). specialize (U _ _ _ D K2). injection U as U1 U2 U3. subst t u v. f_equal.
        apply eq_true_iff_eq. tauto.
Qed.
