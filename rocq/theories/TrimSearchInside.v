(** The boxes of the attempts, and a geometry that lies inside the cell. *)
From Coq Require Import Reals List Arith NArith ZArith Bool Lia Lra Permutation.
From Verif Require Import Geo MappingModel TrimmedQuadModel MeshModel MeshProofs MeshGeoModel MeshGeoProofs MeshSumProofs MeshBoxProofs MeshProps ClipModel SearchModel GeoQueryModel GeoQueryProofs SatMain ClipMeshProofs ClipResult ClipProps ClipCells DomainModel DomainProps ContourModel ContourProofs ContourProps ConditionProofs TrimSearchModel TrimSearchSpec TrimSearchProofs TrimSearchGeo.
Import ListNotations.
Local Open Scope R_scope.

(** *** The boxes of the attempts *)
(** [lo', hi'] is [lo, hi] with each side moved outwards n times by 1 to 100 times [step]. *)
Definition moved (step : R) (n : nat) (lo hi lo' hi' : pt) : Prop := forall i,
  INR n * step <= at_ i lo - at_ i lo' <= INR n * (100 * step) /\ INR n * step <= at_ i hi' - at_ i hi <= INR n * (100 * step).
Lemma moved_0 step lo hi : moved step 0 lo hi lo hi.
Proof. intros i. cbn [INR]. lra. Qed.
Lemma attempt_boxes step l : 0 < step -> forall lo hi sw, starts lo hi sw l -> linked step l -> forall k a, nth_error l k = Some a ->
  a_switch a = xorb sw (Nat.odd k) /\ exists n, (n <= Nat.div2 (k + if sw then 1 else 0))%nat /\ moved step n lo hi (a_lo a) (a_hi a).
Proof.
  intros P. induction l as [|a0 l IH]; intros lo hi sw S Lk k a E; [destruct k; discriminate|]. destruct S as (S1 & S2 & S3). destruct k as [|k].
  - injection E as <-. split; [rewrite S3, xorb_false_r; reflexivity|]. exists O. split; [lia|]. rewrite S1, S2. apply moved_0.
  - cbn [nth_error] in E. destruct l as [|b l]; [destruct k; discriminate|]. destruct Lk as [[F1 F2] Lk].
    destruct (IH (a_lo b) (a_hi b) (negb sw)) with (k := k) (a := a) as (E1 & n & N & M); [split; [reflexivity|split; [reflexivity|congruence]]|exact Lk|exact E|].
    split; [rewrite E1, Nat.odd_succ, <- Nat.negb_odd; destruct sw, (Nat.odd k); reflexivity|]. rewrite S3 in F2. destruct sw; cbn [negb] in N.
    + replace (S k + 1)%nat with (S (S k)) by lia. cbn [Nat.div2]. rewrite Nat.add_0_r in N. destruct (a_domain a0) as [x|].
      * exists (S n). split; [lia|]. intros i. specialize (M i). specialize (F2 i). rewrite S1, S2 in F2. rewrite S_INR. lra.
      * destruct F2 as [F2 F3]. exists n. split; [lia|]. rewrite F2, F3, S1, S2 in M. exact M.
    + destruct F2 as [F2 F3]. exists n. split; [replace (S k + 0)%nat with (k + 1)%nat by lia; exact N|]. rewrite F2, F3, S1, S2 in M. exact M.
Qed.
Lemma snap_moved step n lo hi lo' hi' : 0 < step -> moved step n lo hi lo' hi' -> snap_of lo' hi' <= snap_of lo hi + / 10 ^ 12 * (INR n * (200 * step)).
Proof.
  intros P M. assert (H : 0 < / 10 ^ 12) by (apply Rinv_0_lt_compat, pow_lt; lra). assert (Nn := pos_INR n). assert (A := M AX). assert (B := M AY). assert (C := M AZ). cbn [at_] in *.
  set (D := INR n * (200 * step)). assert (D0 : 0 <= D) by (unfold D; nra).
  unfold snap_of, relative_tol. set (w := Rmax (px hi - px lo) (Rmax (py hi - py lo) (pz hi - pz lo))).
  assert (W : Rmax (px hi' - px lo') (Rmax (py hi' - py lo') (pz hi' - pz lo')) <= w + D).
  { assert (W1 := Rmax_l (px hi - px lo) (Rmax (py hi - py lo) (pz hi - pz lo))). assert (W2 := Rmax_r (px hi - px lo) (Rmax (py hi - py lo) (pz hi - pz lo))).
    assert (W3 := Rmax_l (py hi - py lo) (pz hi - pz lo)). assert (W4 := Rmax_r (py hi - py lo) (pz hi - pz lo)). fold w in W1, W2. unfold D. repeat apply Rmax_lub; lra. }
  assert (W5 := Rmax_l (w * / 10 ^ 12) (/ 10 ^ 12)). assert (W6 := Rmax_r (w * / 10 ^ 12) (/ 10 ^ 12)).
  apply Rmax_lub; [|nra]. apply (Rmult_le_compat_r (/ 10 ^ 12)) in W; lra.
Qed.
Lemma wide_moved step n lo hi lo' hi' : 0 < step -> wide lo hi -> moved step n lo hi lo' hi' -> wide lo' hi'.
Proof.
  intros P W M i. assert (S := snap_moved step n lo hi lo' hi' P M). assert (W' := W i). specialize (M i). assert (Nn := pos_INR n). assert (X : 0 <= INR n * step) by nra.
  assert (H : / 10 ^ 12 <= 1) by (rewrite <- Rinv_1; apply Rinv_le_contravar; [lra|]; apply pow_R1_Rle; lra).
  assert (Y : / 10 ^ 12 * (INR n * (200 * step)) <= / 10 ^ 12 * 200 * (INR n * step)) by lra.
  assert (Z : / 10 ^ 12 * 200 <= 1) by (replace (/ 10 ^ 12 * 200) with (200 / 10 ^ 12) by (unfold Rdiv; ring); apply Rmult_le_reg_r with (10 ^ 12); [apply pow_lt; lra|unfold Rdiv; rewrite Rmult_assoc, Rinv_l by (apply pow_nonzero; lra); lra]).
  assert (V : / 10 ^ 12 * 200 * (INR n * step) <= 1 * (INR n * step)) by (apply Rmult_le_compat_r; lra). lra.
Qed.
Lemma wide_box lo hi : wide lo hi -> forall i, at_ i lo <= at_ i hi.
Proof. intros W i. specialize (W i). assert (S := snap_pos lo hi). lra. Qed.

(** *** An empty set of edges on a face *)
Lemma empty_face pl lookup sort_points sort_edges inside : (forall vs, permutes (sort_edges vs)) -> (forall q, inside (lift pl (position pl) q) = false) ->
  face_mesh pl lookup sort_points sort_edges inside [] = Some empty_cmesh.
Proof.
  intros Se In_. assert (S0 : forall vs, sort_edges vs [] = []) by (intros vs; apply Permutation_nil, Se).
  unfold face_mesh. cbn [collect fold_left and_then].
  assert (F : forall p, find_vertex lookup empty_cont p = None). { intros p. unfold find_vertex. destruct (lookup _ p) as [k|]; [destruct k; reflexivity|reflexivity]. }
  assert (X : forall p, exists_somewhere lookup empty_state p = false). { intros p. unfold exists_somewhere. cbn [pos neg ver empty_state]. rewrite F. reflexivity. }
  assert (C : close_top pl lookup sort_edges inside (reserved []) empty_state = Some empty_state).
  { unfold close_top, top_vertices. unfold intersecting. cbn [pos neg ver empty_state empty_cont edges verts each option_map concat]. rewrite S0. cbn [and_then].
    change (remove_vertical_duplicates pl [] []) with (@nil (edge2 * bool)). change (remove_duplicates pl [] []) with (@nil (edge2 * bool)). rewrite !X. cbn [negb length Nat.add merge_tops and_then rev app fst snd].
    cbn [andb]. destruct (rltb _ _); cbn [app fst snd]; [rewrite In_; reflexivity|reflexivity]. }
  unfold close_contour. rewrite C. reflexivity.
Qed.

(** *** A geometry inside the cell *)
(** All vertices of the triangles are inside the box, away from its sides by more than a tenth of its tolerance. *)
Definition inside_cell (lo hi : pt) (L : list (tri pt * pt)) : Prop :=
  forall q c i, In q L -> In c (corners_of (fst q)) -> at_ i lo + / 10 * snap_of lo hi < at_ i c < at_ i hi - / 10 * snap_of lo hi.
Lemma clip_one_inside lo hi q m l : cm_ok m -> cm_edges m = [] -> visit_n (cm_mesh m) = Some l -> (forall c, In c (corners_of (fst q)) -> strictly_inside lo hi c) ->
  exists m', clip_one lo hi q m = Some m' /\ cm_ok m' /\ cm_edges m' = [] /\ visit_n (cm_mesh m') = Some (l ++ [q]).
Proof.
  intros O E V S. destruct (clip_contained (fst q) (snd q) lo hi S) as (p & Cp & Pp & Pn). unfold clip_one. rewrite Cp. destruct (clip_cases _ _ _ _ _ Cp) as [_ Ep].
  assert (Nm : p_normal p = snd q) by (rewrite Ep; reflexivity). unfold positions in Pp. unfold add_to_mesh. destruct (p_vertices p) as [|va [|vb [|vc [|vd vs]]]]; try discriminate. cbn [map corners_of] in Pp. injection Pp as Ea Eb Ec.
  rewrite Ea, Eb, Ec, Nm. set (m1 := add_three (P1 (fst q)) (P2 (fst q)) (P3 (fst q)) (snd q) m).
  assert (Fo : forall ks nv nt, fold_left (ClipModel.tri_edges va vb vc nv nt) ks (Some m1) = Some m1).
  { intros ks nv nt. induction ks as [|k ks IH]; [reflexivity|]. cbn [fold_left ClipModel.tri_edges and_then]. rewrite (Pn va k), (Pn vb k), (Pn vc k) by (cbn; auto). exact IH. }
  rewrite Fo. exists m1. destruct (three_ok (P1 (fst q)) (P2 (fst q)) (P3 (fst q)) (snd q) m l O V) as [W V']. fold m1 in W, V'.
  split; [reflexivity|]. assert (E1 : cm_edges m1 = []) by exact E. split; [|split; [exact E1|]].
  - split; [exact W|]. rewrite E1. constructor.
  - rewrite V'. destruct q as [[a b c] n]. reflexivity.
Qed.
Lemma clip_fold_inside lo hi ql : (forall q c, In q ql -> In c (corners_of (fst q)) -> strictly_inside lo hi c) -> forall m l, cm_ok m -> cm_edges m = [] -> visit_n (cm_mesh m) = Some l ->
  exists m', fold_left (fun m q => and_then m (clip_one lo hi q)) ql (Some m) = Some m' /\ cm_ok m' /\ cm_edges m' = [] /\ visit_n (cm_mesh m') = Some (l ++ ql).
Proof.
  induction ql as [|q ql IH]; intros S m l O E V; cbn [fold_left]; [exists m; rewrite app_nil_r; auto|].
  destruct (clip_one_inside lo hi q m l O E V) as (m1 & E1 & O1 & N1 & V1); [intros c; apply S; left; reflexivity|]. cbn [and_then]. rewrite E1.
  destruct (IH (fun q c I => S q c (or_intror I)) m1 _ O1 N1 V1) as (m' & E' & O' & N' & V'). exists m'. rewrite <- app_assoc in V'. auto.
Qed.
Lemma visit_perm {A} (get : nat -> option A) l l' r r' : Permutation l l' -> visit_list get l = Some r -> visit_list get l' = Some r' -> Permutation r r'.
Proof.
  intros P. revert r r'. induction P; intros r r' E E'; cbn [visit_list] in E, E'.
  - injection E as <-. injection E' as <-. constructor.
  - destruct (get x) as [a|]; [|discriminate]. destruct (visit_list get l) as [s|] eqn:El; [|discriminate]. destruct (visit_list get l') as [s'|] eqn:El'; [|discriminate]. injection E as <-. injection E' as <-. constructor. apply IHP; auto.
  - destruct (get x) as [a|]; [|destruct (get y); discriminate]. destruct (get y) as [b|]; [|discriminate]. destruct (visit_list get l) as [s|]; [|discriminate]. injection E as <-. injection E' as <-. constructor.
  - destruct (visit_list get l') as [s|] eqn:Em.
    + eapply perm_trans; [apply (IHP1 r s E eq_refl)|apply (IHP2 s r' eq_refl E')].
    + exfalso. assert (X : forall j, In j l -> get j <> None) by (intros j I; destruct (in_visit _ _ _ _ E I) as (a & -> & _); discriminate).
      assert (Y : forall j, In j l' -> get j <> None) by (intros j I; apply X; eapply Permutation_in; [apply Permutation_sym; eassumption|exact I]). clear - Y Em.
      induction l' as [|j l' IH]; [discriminate|]. cbn [visit_list] in Em. assert (Yj := Y j (or_introl eq_refl)). destruct (get j); [|congruence]. destruct (visit_list get l'); [discriminate|]. apply IH; [reflexivity|]. intros k I. apply Y. right. exact I.
Qed.

Section Inside.
Variable src : mesh pt.
Variable g : gquery.
Variable junk : nat -> node RA.
Variable L : list (tri pt * pt).
Variable lookup : plane -> list point2 -> point2 -> option nat.
Variable sort_points : list point2 -> list point2.
Variable sort_edges : list point2 -> list (edge2 * bool) -> list (edge2 * bool).
Variable inside : cmesh -> R -> pt -> bool.
Hypothesis Wf : well_formed src.
Hypothesis VL : visit_n src = Some L.
Hypothesis Ne : L <> [].
Hypothesis Nt : (Z.of_nat (length L) <= 2 ^ 30)%Z.
Hypothesis Eg : make_query junk (map fst L) true = Some g.
Hypothesis Sp : permutes sort_points.
Hypothesis Se : forall vs, permutes (sort_edges vs).

Lemma clip_cell_inside lo hi : wide lo hi -> inside_cell lo hi L -> exists m l, clip_cell src g lo hi = Some m /\ cm_ok m /\ cm_edges m = [] /\ visit_n (cm_mesh m) = Some l /\ Permutation l L.
Proof.
  intros W Ic. assert (Sn := snap_pos lo hi). assert (Pt := plane_tol_snap lo hi).
  destruct (intersected_ids_ok junk (map fst L) true g lo hi (/ 10 * snap_of lo hi)) as (ids & E & N & H0); [rewrite map_length; exact Nt|destruct L; [congruence|discriminate]|exact Eg|lra|exact W|].
  assert (Pm : Permutation ids (seq 0 (num_triangles src))).
  { apply NoDup_Permutation; [exact N|apply seq_NoDup|]. intros j. rewrite H0, in_seq, <- (L_len src L VL). split.
    - intros (q & x & Q & _). rewrite nth_error_map in Q. destruct (nth_error L j) eqn:F; [|discriminate]. assert (j < length L)%nat by (apply nth_error_Some; congruence). lia.
    - intros [_ J]. cbn [Nat.add] in J. apply nth_error_Some in J. destruct (nth_error L j) as [q|] eqn:F; [|congruence]. exists (fst q), (P1 (fst q)). rewrite nth_error_map, F. split; [reflexivity|]. split.
      + apply in_triangle_same. exists 1, 0, 0. split; [lra|]. split; [lra|]. split; [lra|]. split; [lra|]. apply Geo.pt_eq. intros []; unfold vadd, vscale; cbn [at_ px py pz]; ring.
      + intros i. assert (X := Ic q (P1 (fst q)) i (nth_error_In _ _ F) (or_introl eq_refl)). lra. }
  destruct (clip_mesh_ok src ids lo hi Wf) as (l & m & news & El & Em & Om & Vm & _).
  { intros j J. eapply Permutation_in in J; [|exact Pm]. apply in_seq in J. lia. }
  assert (Pl : Permutation l L) by (eapply visit_perm; [exact Pm|exact El|exact VL]).
  destruct (clip_fold_inside lo hi l) with (m := empty_cmesh) (l := @nil (tri pt * pt)) as (m' & Ef & Om' & Ed & Vm').
  - intros q c Iq I i. assert (X := Ic q c i (Permutation_in _ Pl Iq) I). lra.
  - split; [apply empty_wf | constructor].
  - reflexivity.
  - reflexivity.
  - exists m, l. split; [unfold clip_cell; rewrite E; exact Em|]. assert (m' = m) as ->.
    { unfold clip_mesh in Em. rewrite El in Em. cbn [and_then] in Em. rewrite Ef in Em. cbn [and_then] in Em. destruct (0 <? num_triangles (cm_mesh m'))%nat; [destruct (check (cm_mesh m')); [|discriminate]|]; injection Em as <-; reflexivity. }
    auto.
Qed.
(** The inside test is negative on the faces of the box. *)
Definition empty_faces (lo hi : pt) : Prop := forall m s p i, at_ i p = at_ i lo \/ at_ i p = at_ i hi -> inside m s p = false.
Lemma make_domain_inside m l lo hi min sw : cm_ok m -> cm_edges m = [] -> visit_n (cm_mesh m) = Some l -> l <> [] -> (min <= length l)%nat -> empty_faces lo hi ->
  exists d, make_domain lookup sort_points sort_edges inside m lo hi min sw = Some d /\ dm_clipped d = m /\ well_formed (dm_closed d) /\ visit_n (dm_closed d) = Some l /\ dm_snap d = snap_of lo hi.
Proof using Se.
  clear Nt. intros O Ed V Nl Mn Ef. assert (Ln := proj1 (proj1 (visit_seq _ _ _) V)). unfold make_domain. destruct (num_triangles (cm_mesh m) =? 0)%nat eqn:E0; [apply Nat.eqb_eq in E0; destruct l; [congruence|cbn in Ln; lia]|].
  assert (F : forall f, In f six_faces -> face_of lookup sort_points sort_edges inside m lo hi sw f = Some empty_mesh).
  { intros f I. unfold face_of. unfold edges_on. rewrite Ed. cbn [List.filter map all_of].
    assert (Mp : exists pl, make_plane (fst f) (snd f) lo hi sw = Some pl /\ pl_lo pl = lo /\ pl_hi pl = hi).
    { unfold six_faces in I. repeat destruct I as [<-|I]; [..|destruct I]; cbn [fst snd make_plane]; destruct sw; eexists; (split; [reflexivity|split; reflexivity]). }
    destruct Mp as (pl & Mp & El & Eh). rewrite Mp. cbn [and_then]. rewrite empty_face; [reflexivity|exact Se|]. intros q. apply (Ef m _ _ (d3 pl)). unfold lift, position. rewrite El, Eh.
    assert (X : forall a z p, at_ a (set_at a z p) = z) by (intros [] z p; reflexivity). rewrite X. destruct (pl_upper pl); auto. }
  assert (A : all_of (map (face_of lookup sort_points sort_edges inside m lo hi sw) six_faces) = Some (repeat empty_mesh 6)).
  { unfold six_faces. cbn [map]. rewrite !F by (cbn; tauto). reflexivity. }
  rewrite A. cbn [and_then]. destruct (append_all (fun _ => False) (repeat empty_mesh 6) (cm_mesh m) l) as (c & ts & Ec & Wc & Vc & Pc).
  - apply O.
  - exact V.
  - apply Forall_forall. intros x I. apply repeat_spec in I. subst x. exists []. split; [apply empty_wf|]. split; [reflexivity|constructor].
  - rewrite Ec. cbn [and_then]. destruct ts as [|t ts]; [|inversion Pc; contradiction]. rewrite app_nil_r in Vc.
    assert (Lc := proj1 (proj1 (visit_seq _ _ _) Vc)). assert (R : refine c min = Ok c). { unfold refine. cbn [refine_loop]. destruct (num_triangles c <? min)%nat eqn:X; [apply Nat.ltb_lt in X; lia|reflexivity]. }
    rewrite R. eexists. split; [reflexivity|]. cbn [dm_clipped dm_closed dm_snap]. auto.
Qed.
End Inside.
Lemma quality_perm m m' l l' : visit_n m = Some l -> visit_n m' = Some l' -> Permutation l l' -> estimate_quality m = estimate_quality m' /\ mesh_volume m = mesh_volume m'.
Proof.
  intros V V' P. split.
  - unfold estimate_quality. rewrite V, V'. cbn [option_map]. cbv zeta. rewrite !total_sum. rewrite !(fun f => sum_perm f l l' P). reflexivity.
  - rewrite (volume_visit _ _ V), (volume_visit _ _ V'), (sum_perm _ _ _ P). reflexivity.
Qed.
