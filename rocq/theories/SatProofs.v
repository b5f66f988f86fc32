(** Proofs about the separating axis test of a box and a triangle. *)
From Coq Require Import Reals Lra Psatz List Bool.
From Verif Require Import Geo MappingModel TrimmedQuadModel MeshModel MeshGeoModel GeoQueryModel Helly.
Import ListNotations.
Local Open Scope R_scope.

(** *** Two inequalities and an edge (two coordinates). *)
Definition some3 (P : R -> Prop) (a b c : R) : Prop := P a \/ P b \/ P c.

Lemma edge_pair (ei ej yP yQ yW zP zQ zW : R) :
  let fy := yQ - yP in let fz := zQ - zP in let gy := yW - yP in let gz := zW - zP in
  some3 (fun y => y <= ei) yP yQ yW -> some3 (fun z => z <= ej) zP zQ zW ->
  (let M y z := fz * y - fy * z in let r := ei * Rabs fz + ej * Rabs fy in
   some3 (fun m => m <= r) (M yP zP) (M yQ zQ) (M yW zW) /\ some3 (fun m => - r <= m) (M yP zP) (M yQ zQ) (M yW zW)) ->
  (let M y z := gz * y - gy * z in let r := ei * Rabs gz + ej * Rabs gy in
   some3 (fun m => m <= r) (M yP zP) (M yQ zQ) (M yW zW) /\ some3 (fun m => - r <= m) (M yP zP) (M yQ zQ) (M yW zW)) ->
  exists a b, 0 <= b /\ yP + a * fy + b * gy <= ei /\ zP + a * fz + b * gz <= ej.
Proof.
  intros fy fz gy gz Uy Uz F G. cbv zeta in F, G. unfold some3 in *.
  assert (EQ : yQ = yP + fy) by (unfold fy; ring). assert (EZ : zQ = zP + fz) by (unfold fz; ring).
  assert (EY : yW = yP + gy) by (unfold gy; ring). assert (EW : zW = zP + gz) by (unfold gz; ring).
  clearbody fy fz gy gz. subst yQ zQ yW zW.
  replace (fz * (yP + fy) - fy * (zP + fz)) with (fz * yP - fy * zP) in F by ring.
  replace (gz * (yP + gy) - gy * (zP + gz)) with (gz * yP - gy * zP) in G by ring.
  destruct (Req_dec fy 0) as [Fy | Fy].
  - destruct (Req_dec fz 0) as [Fz | Fz].
    + subst fy fz. rewrite !Rplus_0_r in *. clear F.
      assert (Uy' : yP <= ei \/ yP + gy <= ei) by tauto. assert (Uz' : zP <= ej \/ zP + gz <= ej) by tauto. clear Uy Uz.
      destruct (Rle_dec yP ei) as [Y0 | Y0].
      * destruct (Rle_dec zP ej) as [Z0 | Z0]; [exists 0, 0; repeat split; lra | ].
        destruct Uz' as [Z1 | Z1]; [lra | ].
        destruct (Rle_dec (yP + gy) ei) as [Y1 | Y1]; [exists 0, 1; repeat split; lra | ].
        assert (Hgy : 0 < gy) by lra. assert (Hgz : gz < 0) by lra.
        rewrite (Rabs_left gz), (Rabs_right gy) in G by lra.
        exists 0, ((ei - yP) / gy). split; [ | split].
        -- apply Rmult_le_pos; [lra | left; apply Rinv_0_lt_compat, Hgy].
        -- right. field. lra.
        -- apply (Rmult_le_reg_l gy); [exact Hgy | ].
           replace (gy * (zP + 0 * 0 + (ei - yP) / gy * gz)) with (gy * zP + (ei - yP) * gz) by (field; lra). nra.
      * destruct Uy' as [Y1 | Y1]; [lra | ].
        destruct (Rle_dec (zP + gz) ej) as [Z1 | Z1]; [exists 0, 1; repeat split; lra | ].
        destruct Uz' as [Z0 | Z0]; [ | lra].
        assert (Hgy : gy < 0) by lra. assert (Hgz : 0 < gz) by lra.
        rewrite (Rabs_right gz), (Rabs_left gy) in G by lra.
        exists 0, ((ej - zP) / gz). split; [ | split].
        -- apply Rmult_le_pos; [lra | left; apply Rinv_0_lt_compat, Hgz].
        -- apply (Rmult_le_reg_l gz); [exact Hgz | ].
           replace (gz * (yP + 0 * 0 + (ej - zP) / gz * gy)) with (gz * yP + (ej - zP) * gy) by (field; lra). nra.
        -- right. field. lra.
    + (* fy = 0 *)
      subst fy. rewrite !Rplus_0_r in *.
      assert (Uy' : yP <= ei \/ yP + gy <= ei) by tauto. destruct Uy' as [Y | Y].
      * exists ((ej - zP) / fz), 0. split; [lra | ]. split; [lra | ]. right. field. exact Fz.
      * exists ((ej - zP - gz) / fz), 1. split; [lra | ]. split; [lra | ]. right. field. exact Fz.
  - destruct (Req_dec fz 0) as [Fz | Fz].
    + subst fz. rewrite !Rplus_0_r in *.
      assert (Uz' : zP <= ej \/ zP + gz <= ej) by tauto. destruct Uz' as [Z | Z].
      * exists ((ei - yP) / fy), 0. split; [lra | ]. split; [right; field; exact Fy | ]. lra.
      * exists ((ei - yP - gy) / fy), 1. split; [lra | ]. split; [right; field; exact Fy | ]. lra.
    + clear G. destruct F as [F1 F2].
      destruct (Rlt_le_dec fy 0) as [Sy | Sy]; [ | assert (Py : 0 < fy) by lra; clear Sy];
        (destruct (Rlt_le_dec fz 0) as [Sz | Sz]; [ | assert (Pz : 0 < fz) by lra; clear Sz]).
      * exists (Rmax ((ei - yP) / fy) ((ej - zP) / fz)), 0. split; [lra | ].
        pose proof (Rmax_l ((ei - yP) / fy) ((ej - zP) / fz)) as L. pose proof (Rmax_r ((ei - yP) / fy) ((ej - zP) / fz)) as R0.
        set (m := Rmax _ _) in *. clearbody m.
        assert (K1 : (ei - yP) / fy * fy = ei - yP) by (field; lra). assert (K2 : (ej - zP) / fz * fz = ej - zP) by (field; lra).
        split; nra.
      * rewrite (Rabs_left fy), (Rabs_right fz) in F1 by lra.
        assert (F1' : exists b, 0 <= b /\ fz * (yP + b * gy) - fy * (zP + b * gz) <= ei * fz + ej * - fy).
        { destruct F1 as [H | [H | H]]; [exists 0; split; [lra | nra] | exists 0; split; [lra | nra] | exists 1; split; [lra | nra]]. }
        destruct F1' as (b & Hb & H). exists ((ei - yP - b * gy) / fy), b. split; [exact Hb | ]. split; [right; field; lra | ].
        apply (Rmult_le_reg_l (- fy)); [lra | ].
        replace (- fy * (zP + (ei - yP - b * gy) / fy * fz + b * gz)) with (- fy * zP - (ei - yP - b * gy) * fz - fy * (b * gz)) by (field; lra). nra.
      * rewrite (Rabs_right fy), (Rabs_left fz) in F2 by lra.
        assert (F2' : exists b, 0 <= b /\ - (ei * - fz + ej * fy) <= fz * (yP + b * gy) - fy * (zP + b * gz)).
        { destruct F2 as [H | [H | H]]; [exists 0; split; [lra | nra] | exists 0; split; [lra | nra] | exists 1; split; [lra | nra]]. }
        destruct F2' as (b & Hb & H). exists ((ei - yP - b * gy) / fy), b. split; [exact Hb | ]. split; [right; field; lra | ].
        apply (Rmult_le_reg_l fy); [lra | ].
        replace (fy * (zP + (ei - yP - b * gy) / fy * fz + b * gz)) with (fy * zP + (ei - yP - b * gy) * fz + fy * (b * gz)) by (field; lra). nra.
      * exists (Rmin ((ei - yP) / fy) ((ej - zP) / fz)), 0. split; [lra | ].
        pose proof (Rmin_l ((ei - yP) / fy) ((ej - zP) / fz)) as L. pose proof (Rmin_r ((ei - yP) / fy) ((ej - zP) / fz)) as R0.
        set (m := Rmin _ _) in *. clearbody m.
        assert (K1 : (ei - yP) / fy * fy = ei - yP) by (field; lra). assert (K2 : (ej - zP) / fz * fz = ej - zP) by (field; lra).
        split; nra.
Qed.

(** *** Three inequalities in two unknowns: c0 + c1 s + c2 t <= k. *)
Record aff := Aff { c0 : R; c1 : R; c2 : R }.
Definition val (f : aff) (s t : R) : R := c0 f + c1 f * s + c2 f * t.
Definition det2 (f g : aff) : R := c1 f * c2 g - c2 f * c1 g.

Lemma three_solve (f g h : aff) kf kg kh : det2 f g <> 0 ->
  (let M := det2 g h * c0 f - det2 f h * c0 g + det2 f g * c0 h in
   Rabs M <= kf * Rabs (det2 g h) + kg * Rabs (det2 f h) + kh * Rabs (det2 f g)) ->
  exists s t, val f s t <= kf /\ val g s t <= kg /\ val h s t <= kh.
Proof.
  intros D HM. cbv zeta in HM.
  assert (Sol : forall Y Z, exists s t, val f s t = Y /\ val g s t = Z).
  { intros Y Z. exists (((Y - c0 f) * c2 g - (Z - c0 g) * c2 f) / det2 f g), (((Z - c0 g) * c1 f - (Y - c0 f) * c1 g) / det2 f g).
    unfold val. split; unfold det2 in *; field; exact D. }
  assert (Hw : forall s t, det2 f g * val h s t = (det2 g h * c0 f - det2 f h * c0 g + det2 f g * c0 h) - det2 g h * val f s t + det2 f h * val g s t).
  { intros s t. unfold val, det2. ring. }
  set (M := det2 g h * c0 f - det2 f h * c0 g + det2 f g * c0 h) in *.
  set (d := det2 f g) in *. set (p := det2 g h) in *. set (q := det2 f h) in *. clearbody M d p q.
  assert (Inv : d * / d = 1) by (field; exact D).
  destruct (Rlt_le_dec (p * d) 0) as [A | A].
  - (* the third grows with the first *)
    set (Y := Rmin kf (kf + (d * kh - (M - p * kf + q * kg)) / - p)).
    destruct (Sol Y kg) as (s & t & E1 & E2). exists s, t.
    assert (L : Y <= kf) by apply Rmin_l. assert (L2 : Y <= kf + (d * kh - (M - p * kf + q * kg)) / - p) by apply Rmin_r.
    split; [lra | ]. split; [lra | ]. specialize (Hw s t). rewrite E1, E2 in Hw.
    assert (P0 : p <> 0) by nra.
    assert (E3 : (d * kh - (M - p * kf + q * kg)) / - p * - p = d * kh - (M - p * kf + q * kg)) by (field; exact P0).
    set (x := (d * kh - (M - p * kf + q * kg)) / - p) in *. clearbody x Y.
    destruct (Rlt_le_dec 0 d) as [Pd | Nd].
    + assert (p < 0) by nra. nra.
    + assert (0 < p) by nra. assert (d < 0) by lra. nra.
  - destruct (Rlt_le_dec 0 (q * d)) as [B | B].
    + set (Z := Rmin kg (kg + (d * kh - (M - p * kf + q * kg)) / q)).
      destruct (Sol kf Z) as (s & t & E1 & E2). exists s, t.
      assert (L : Z <= kg) by apply Rmin_l. assert (L2 : Z <= kg + (d * kh - (M - p * kf + q * kg)) / q) by apply Rmin_r.
      split; [lra | ]. split; [lra | ]. specialize (Hw s t). rewrite E1, E2 in Hw.
      assert (P0 : q <> 0) by nra.
      assert (E3 : (d * kh - (M - p * kf + q * kg)) / q * q = d * kh - (M - p * kf + q * kg)) by (field; exact P0).
      set (x := (d * kh - (M - p * kf + q * kg)) / q) in *. clearbody x Z.
      destruct (Rlt_le_dec 0 d) as [Pd | Nd].
      * assert (0 < q) by nra. nra.
      * assert (q < 0) by nra. assert (d < 0) by lra. nra.
    + destruct (Sol kf kg) as (s & t & E1 & E2). exists s, t. split; [lra | ]. split; [lra | ].
      specialize (Hw s t). rewrite E1, E2 in Hw.
      destruct (Rlt_le_dec 0 d) as [Pd | Nd].
      * assert (0 <= p) by nra. assert (q <= 0) by nra.
        rewrite (Rabs_right p), (Rabs_left1 q), (Rabs_right d) in HM by lra.
        pose proof (Rle_abs M). nra.
      * assert (d < 0) by lra. assert (p <= 0) by nra. assert (0 <= q) by nra.
        rewrite (Rabs_left1 p), (Rabs_right q), (Rabs_left d) in HM by lra.
        pose proof (Rle_abs (- M)) as HA. rewrite Rabs_Ropp in HA. nra.
Qed.

(** Parallel lines: if any two inequalities have a common solution then all three have. *)
Lemma three_parallel (f g h : aff) kf kg kh : det2 f g = 0 -> det2 f h = 0 -> det2 g h = 0 ->
  (exists s t, val f s t <= kf /\ val g s t <= kg) -> (exists s t, val f s t <= kf /\ val h s t <= kh) ->
  (exists s t, val g s t <= kg /\ val h s t <= kh) ->
  exists s t, val f s t <= kf /\ val g s t <= kg /\ val h s t <= kh.
Proof.
  intros Dfg Dfh Dgh (s1 & t1 & A1 & A2) (s2 & t2 & B1 & B2) (s3 & t3 & C1 & C2).
  assert (Z : (c1 f = 0 /\ c2 f = 0) \/ 0 < c1 f * c1 f + c2 f * c2 f).
  { destruct (Req_dec (c1 f) 0); [destruct (Req_dec (c2 f) 0); [left; auto | right; nra] | right; nra]. }
  destruct Z as [[Z1 Z2] | N].
  { exists s3, t3. split; [ | split; assumption]. unfold val in *. rewrite Z1, Z2 in *. lra. }
  set (n := c1 f * c1 f + c2 f * c2 f) in *.
  set (cg := (c1 f * c1 g + c2 f * c2 g) / n). set (ch := (c1 f * c1 h + c2 f * c2 h) / n).
  set (tau s t := c1 f * s + c2 f * t).
  assert (Vf : forall s t, val f s t = c0 f + tau s t) by (intros; unfold val, tau; ring).
  assert (Vg : forall s t, val g s t = c0 g + cg * tau s t).
  { intros s t. unfold val, tau. assert (Hx : c1 g = cg * c1 f).
    { unfold cg. apply (Rmult_eq_reg_l n); [ | lra]. replace (n * ((c1 f * c1 g + c2 f * c2 g) / n * c1 f)) with ((c1 f * c1 g + c2 f * c2 g) * c1 f) by (field; lra).
      apply Rminus_diag_uniq. replace (n * c1 g - (c1 f * c1 g + c2 f * c2 g) * c1 f) with (- c2 f * det2 f g) by (unfold n, det2; ring). rewrite Dfg. ring. }
    assert (Hy : c2 g = cg * c2 f).
    { unfold cg. apply (Rmult_eq_reg_l n); [ | lra]. replace (n * ((c1 f * c1 g + c2 f * c2 g) / n * c2 f)) with ((c1 f * c1 g + c2 f * c2 g) * c2 f) by (field; lra).
      apply Rminus_diag_uniq. replace (n * c2 g - (c1 f * c1 g + c2 f * c2 g) * c2 f) with (c1 f * det2 f g) by (unfold n, det2; ring). rewrite Dfg. ring. }
    rewrite Hx, Hy. ring. }
  assert (Vh : forall s t, val h s t = c0 h + ch * tau s t).
  { intros s t. unfold val, tau. assert (Hx : c1 h = ch * c1 f).
    { unfold ch. apply (Rmult_eq_reg_l n); [ | lra]. replace (n * ((c1 f * c1 h + c2 f * c2 h) / n * c1 f)) with ((c1 f * c1 h + c2 f * c2 h) * c1 f) by (field; lra).
      apply Rminus_diag_uniq. replace (n * c1 h - (c1 f * c1 h + c2 f * c2 h) * c1 f) with (- c2 f * det2 f h) by (unfold n, det2; ring). rewrite Dfh. ring. }
    assert (Hy : c2 h = ch * c2 f).
    { unfold ch. apply (Rmult_eq_reg_l n); [ | lra]. replace (n * ((c1 f * c1 h + c2 f * c2 h) / n * c2 f)) with ((c1 f * c1 h + c2 f * c2 h) * c2 f) by (field; lra).
      apply Rminus_diag_uniq. replace (n * c2 h - (c1 f * c1 h + c2 f * c2 h) * c2 f) with (c1 f * det2 f h) by (unfold n, det2; ring). rewrite Dfh. ring. }
    rewrite Hx, Hy. ring. }
  rewrite !Vf, ?Vg, ?Vh in *. clearbody cg ch.
  (* the middle one of the three points *)
  assert (Mid : forall c k x y z, k + c * x <= 0 -> k + c * z <= 0 -> (x <= y <= z \/ z <= y <= x) -> k + c * y <= 0).
  { intros c k x y z H1 H2 H. destruct (Rle_lt_dec 0 c); destruct H; nra. }
  set (x1 := tau s1 t1) in *. set (x2 := tau s2 t2) in *. set (x3 := tau s3 t3) in *.
  assert (M1 : x2 <= x1 <= x3 \/ x3 <= x1 <= x2 -> exists s t, val f s t <= kf /\ val g s t <= kg /\ val h s t <= kh).
  { intros H. exists s1, t1. rewrite Vf, Vg, Vh. fold x1. split; [lra | ]. split; [lra | ].
    pose proof (Mid ch (c0 h - kh) x2 x1 x3 ltac:(lra) ltac:(lra) H). lra. }
  assert (M2 : x1 <= x2 <= x3 \/ x3 <= x2 <= x1 -> exists s t, val f s t <= kf /\ val g s t <= kg /\ val h s t <= kh).
  { intros H. exists s2, t2. rewrite Vf, Vg, Vh. fold x2. split; [lra | ]. split; [ | lra].
    pose proof (Mid cg (c0 g - kg) x1 x2 x3 ltac:(lra) ltac:(lra) H). lra. }
  assert (M3 : x1 <= x3 <= x2 \/ x2 <= x3 <= x1 -> exists s t, val f s t <= kf /\ val g s t <= kg /\ val h s t <= kh).
  { intros H. exists s3, t3. rewrite Vf, Vg, Vh. fold x3. split; [ | split; lra].
    destruct H; lra. }
  destruct (Rle_lt_dec x1 x2), (Rle_lt_dec x2 x3), (Rle_lt_dec x1 x3); first [apply M1; lra | apply M2; lra | apply M3; lra].
Qed.

Lemma three_any (f g h : aff) kf kg kh :
  (exists s t, val f s t <= kf /\ val g s t <= kg) -> (exists s t, val f s t <= kf /\ val h s t <= kh) ->
  (exists s t, val g s t <= kg /\ val h s t <= kh) ->
  (let M := det2 g h * c0 f - det2 f h * c0 g + det2 f g * c0 h in
   Rabs M <= kf * Rabs (det2 g h) + kg * Rabs (det2 f h) + kh * Rabs (det2 f g)) ->
  exists s t, val f s t <= kf /\ val g s t <= kg /\ val h s t <= kh.
Proof.
  intros Pfg Pfh Pgh HM. cbv zeta in HM.
  assert (Anti : forall a b, det2 a b = - det2 b a) by (intros; unfold det2; ring).
  destruct (Req_dec (det2 f g) 0) as [D1 | D1]; [ | apply three_solve; assumption].
  destruct (Req_dec (det2 f h) 0) as [D2 | D2].
  2: { destruct (three_solve f h g kf kh kg D2) as (s & t & H1 & H2 & H3); [ | exists s, t; auto].
       cbv zeta. rewrite (Anti h g), Rabs_Ropp.
       replace (- det2 g h * c0 f - det2 f g * c0 h + det2 f h * c0 g) with (- (det2 g h * c0 f - det2 f h * c0 g + det2 f g * c0 h)) by ring.
       rewrite Rabs_Ropp. lra. }
  destruct (Req_dec (det2 g h) 0) as [D3 | D3].
  2: { destruct (three_solve g h f kg kh kf D3) as (s & t & H1 & H2 & H3); [ | exists s, t; auto].
       cbv zeta. rewrite (Anti h f), (Anti g f), !Rabs_Ropp.
       replace (- det2 f h * c0 g - - det2 f g * c0 h + det2 g h * c0 f) with (det2 g h * c0 f - det2 f h * c0 g + det2 f g * c0 h) by ring. lra. }
  apply three_parallel; assumption.
Qed.
