(** C46, C47: clipping of triangles and meshes by a box. *)
From Coq Require Import Reals List Arith Bool Lia Lra.
From Verif Require Import Geo MappingModel TrimmedQuadModel MeshModel MeshProofs MeshGeoModel MeshGeoProofs ClipModel ClipTheory ClipPlane ClipArea ClipProofs ClipInv ClipMeshProofs ClipCover ClipResult.
Import ListNotations.
Local Open Scope R_scope.

(** *** Specification *)
Definition corners_of (t : tri pt) : list pt := [P1 t; P2 t; P3 t].
(** Points of the box, moved inwards or outwards by the tolerance. *)
Definition strictly_inside (lo hi p : pt) : Prop := forall d, at_ d lo + plane_tol < at_ d p < at_ d hi - plane_tol.
(** The box reaches the triangle in a direction from below, from above. *)
Definition reaches_low (lo : pt) (t : tri pt) (d : axis) : Prop := exists c, In c (corners_of t) /\ at_ d lo < at_ d c.
Definition reaches_high (hi : pt) (t : tri pt) (d : axis) : Prop := exists c, In c (corners_of t) /\ at_ d c < at_ d hi.
(** The faces of a box, in the order -x, +x, -y, +y, -z, +z. *)
Definition face (lo hi : pt) (k : nat) : option (axis * R) :=
  match k with
  | 0%nat => Some (AX, px lo) | 1%nat => Some (AX, px hi) | 2%nat => Some (AY, py lo) | 3%nat => Some (AY, py hi)
  | 4%nat => Some (AZ, pz lo) | 5%nat => Some (AZ, pz hi) | _ => None
  end.
Definition near (f : axis * R) (p : pt) : Prop := Rabs (at_ (fst f) p - snd f) <= plane_tol.
(** Area of a plane polygon. *)
Definition poly_area (l : list pt) : R := 1/2 * norm (poly_vector l).
Definition positions (p : polygon) : list pt := map c_pos (p_vertices p).

Lemma face_plane lo hi k f : face lo hi k = Some f -> (k < 6)%nat /\ axis_of k = fst f /\ plane_pos lo hi k = snd f.
Proof. destruct k as [|[|[|[|[|[|k]]]]]]; intros E; try discriminate; injection E as <-; cbn; repeat split; lia. Qed.
Lemma face_all lo hi k : (k < 6)%nat -> face lo hi k = Some (axis_of k, plane_pos lo hi k).
Proof. intros K. destruct k as [|[|[|[|[|[|k]]]]]]; try lia; reflexivity. Qed.
Lemma near_dist lo hi k f p : face lo hi k = Some f -> (near f p <-> - plane_tol <= plane_dist k (plane_pos lo hi k) p <= plane_tol).
Proof.
  intros F. destruct (face_plane lo hi k f F) as (_ & A & B). unfold near, plane_dist. rewrite A, B.
  unfold Rabs. destruct (Nat.even k); destruct (Rcase_abs _); split; intros; lra.
Qed.
Lemma classify_on k pos p : classify k pos plane_tol p = On <-> - plane_tol <= plane_dist k pos p <= plane_tol.
Proof.
  unfold classify. destruct (Rlt_dec plane_tol (plane_dist k pos p)); [split; [discriminate | lra]|].
  destruct (Rlt_dec (plane_dist k pos p) (- plane_tol)); [split; [discriminate | lra]|]. split; [intros _; lra | reflexivity].
Qed.
Lemma aligned_near t lo hi k f : face lo hi k = Some f -> (aligned t lo hi k = true <-> forall c, In c (corners_of t) -> near f c).
Proof.
  intros F. unfold aligned.
  assert (G : forall p, (match classify k (plane_pos lo hi k) plane_tol p with On => true | _ => false end) = true <-> near f p).
  { intros p. rewrite (near_dist lo hi k f p F), <- classify_on. destruct (classify k (plane_pos lo hi k) plane_tol p); split; intros; try discriminate; reflexivity. }
  rewrite !andb_true_iff, !G. split.
  - intros [[A B] C] c [<-|[<-|[<-|[]]]]; assumption.
  - intros H. repeat split; apply H; cbn; tauto.
Qed.
Lemma tri_max_lt t d x : x < tri_max t d <-> exists c, In c (corners_of t) /\ x < at_ d c.
Proof.
  unfold tri_max. split.
  - intros H. unfold Rmax in H. destruct (Rle_dec (at_ d (P1 t)) (at_ d (P2 t))); destruct (Rle_dec _ (at_ d (P3 t)));
      first [exists (P1 t); split; [cbn; tauto | exact H] | exists (P2 t); split; [cbn; tauto | exact H] | exists (P3 t); split; [cbn; tauto | exact H]].
  - intros (c & [<-|[<-|[<-|[]]]] & H); assert (A := Rmax_l (Rmax (at_ d (P1 t)) (at_ d (P2 t))) (at_ d (P3 t))); assert (B := Rmax_r (Rmax (at_ d (P1 t)) (at_ d (P2 t))) (at_ d (P3 t)));
      assert (C := Rmax_l (at_ d (P1 t)) (at_ d (P2 t))); assert (D := Rmax_r (at_ d (P1 t)) (at_ d (P2 t))); lra.
Qed.
Lemma tri_min_lt t d x : tri_min t d < x <-> exists c, In c (corners_of t) /\ at_ d c < x.
Proof.
  unfold tri_min. split.
  - intros H. unfold Rmin in H. destruct (Rle_dec (at_ d (P1 t)) (at_ d (P2 t))); destruct (Rle_dec _ (at_ d (P3 t)));
      first [exists (P1 t); split; [cbn; tauto | exact H] | exists (P2 t); split; [cbn; tauto | exact H] | exists (P3 t); split; [cbn; tauto | exact H]].
  - intros (c & [<-|[<-|[<-|[]]]] & H); assert (A := Rmin_l (Rmin (at_ d (P1 t)) (at_ d (P2 t))) (at_ d (P3 t))); assert (B := Rmin_r (Rmin (at_ d (P1 t)) (at_ d (P2 t))) (at_ d (P3 t)));
      assert (C := Rmin_l (at_ d (P1 t)) (at_ d (P2 t))); assert (D := Rmin_r (at_ d (P1 t)) (at_ d (P2 t))); lra.
Qed.
Lemma clip_cases t n lo hi p : clip_triangle t n lo hi = Some (Some p) -> existsb (aligned t lo hi) (seq 0 6) = false /\ p = Poly (map (emb t) (clip_all t (planes t lo hi) start)) n.
Proof. rewrite clip_triangle_ok. destruct (existsb (aligned t lo hi) (seq 0 6)); intros E; [discriminate|]. injection E as <-. split; reflexivity. Qed.
Definition low_plane (d : axis) : nat := match d with AX => 0 | AY => 2 | AZ => 4 end%nat.

(** *** C46 *)
(** Clipping never raises, and the polygon never has more than nine vertices; it keeps the normal of the triangle. *)
Lemma clip_safe t n lo hi : exists r, clip_triangle t n lo hi = Some r /\
  forall p, r = Some p -> (length (p_vertices p) <= 9)%nat /\ (p_vertices p = [] \/ (3 <= length (p_vertices p))%nat) /\ p_normal p = n.
Proof.
  rewrite clip_triangle_ok. destruct (existsb (aligned t lo hi) (seq 0 6)); eexists; (split; [reflexivity|]); intros p E; [discriminate|]. injection E as <-.
  cbn [p_vertices p_normal]. rewrite map_length. destruct (ws_length t lo hi) as [A B]. split; [exact A|]. split; [|reflexivity].
  destruct B as [B|B]; [left; rewrite B; reflexivity | right; exact B].
Qed.
Theorem C46_safe : forall t n lo hi, exists r, clip_triangle t n lo hi = Some r /\
  forall p, r = Some p -> (length (p_vertices p) <= 9)%nat /\ (p_vertices p = [] \/ (3 <= length (p_vertices p))%nat) /\ p_normal p = n.
Proof. exact clip_safe. Qed.
Print Assumptions C46_safe.

(** All vertices are in the triangle, and in the box up to the tolerance, in every direction in which the box reaches the
    triangle. *)
Lemma clip_within t n lo hi p v : clip_triangle t n lo hi = Some (Some p) -> In v (positions p) ->
  in_triangle t v /\ forall d, (reaches_low lo t d -> at_ d lo - plane_tol <= at_ d v) /\ (reaches_high hi t d -> at_ d v <= at_ d hi + plane_tol).
Proof.
  intros E I. destruct (clip_cases t n lo hi p E) as [_ ->]. unfold positions in I. cbn [p_vertices] in I. rewrite emb_pos in I. apply in_map_iff in I as (q & <- & I).
  destruct (ws_inside t lo hi q I) as [H B]. split; [apply start_hull, H|]. intros d. split; intros Rc.
  - apply tri_max_lt in Rc. assert (J : In (low_plane d, plane_pos lo hi (low_plane d)) (planes t lo hi)).
    { apply planes_in. destruct d; cbn [low_plane used Nat.even plane_pos axis_of Nat.div2 at_] in *; (split; [lia|]; split; [reflexivity|]; destruct (Rlt_dec _ _); [reflexivity | contradiction]). }
    specialize (B _ _ J). unfold hk, plane_dist in B. destruct d; cbn [low_plane plane_pos Nat.even axis_of Nat.div2 at_] in *; lra.
  - apply tri_min_lt in Rc. assert (J : In (S (low_plane d), plane_pos lo hi (S (low_plane d))) (planes t lo hi)).
    { apply planes_in. destruct d; cbn [low_plane used Nat.even plane_pos axis_of Nat.div2 at_] in *; (split; [lia|]; split; [reflexivity|]; destruct (Rlt_dec _ _); [reflexivity | contradiction]). }
    specialize (B _ _ J). unfold hk, plane_dist in B. destruct d; cbn [low_plane plane_pos Nat.even axis_of Nat.div2 at_] in *; lra.
Qed.
Theorem C46_within : forall t n lo hi p v, clip_triangle t n lo hi = Some (Some p) -> In v (positions p) ->
  in_triangle t v /\ forall d, (reaches_low lo t d -> at_ d lo - plane_tol <= at_ d v) /\ (reaches_high hi t d -> at_ d v <= at_ d hi + plane_tol).
Proof. exact clip_within. Qed.
Print Assumptions C46_within.

(** Nothing is lost: every point of the triangle that is in the box by more than the tolerance is in the convex hull of
    the vertices of the polygon. *)
Lemma clip_complete3 t n lo hi x : in_triangle t x -> strictly_inside lo hi x -> exists p, clip_triangle t n lo hi = Some (Some p) /\ hull3 (positions p) x.
Proof.
  intros T S. destruct (triangle_hull t x T) as (q & -> & H).
  assert (Pl : forall k, (k < 6)%nat -> hk t k (plane_pos lo hi k) q < - plane_tol).
  { intros k K. unfold hk, plane_dist. assert (A := S AX). assert (B := S AY). assert (C := S AZ).
    destruct k as [|[|[|[|[|[|k]]]]]]; try lia; cbn [Nat.even plane_pos axis_of Nat.div2 at_] in *; lra. }
  rewrite clip_triangle_ok. destruct (existsb (aligned t lo hi) (seq 0 6)) eqn:Al.
  - exfalso. apply existsb_exists in Al as (k & I & A). apply in_seq in I. assert (K : (k < 6)%nat) by lia.
    assert (N := proj1 (aligned_near t lo hi k _ (face_all lo hi k K)) A).
    assert (G : 0 <= hk t k (plane_pos lo hi k) q + plane_tol); [|specialize (Pl k K); lra].
    apply (H (fun q => 0 <= hk t k (plane_pos lo hi k) q + plane_tol)); [apply half_convex', affine_shift, hk_affine|].
    intros v Iv. assert (M : In (pos2 t v) (corners_of t)).
    { assert (Es := start_emb t). apply (f_equal (map c_pos)) in Es. rewrite emb_pos in Es. cbn [map c_pos] in Es. unfold corners_of. rewrite <- Es. apply in_map, Iv. }
    specialize (N _ M). apply (near_dist lo hi k _ _ (face_all lo hi k K)) in N. unfold hk. lra.
  - eexists. split; [reflexivity|]. unfold positions. cbn [p_vertices]. rewrite emb_pos. apply hull_pos. apply ws_complete; [exact H|].
    intros k pos I. apply planes_in in I as (K & -> & _). exact (Pl k K).
Qed.
Theorem C46_complete : forall t n lo hi x, in_triangle t x -> strictly_inside lo hi x -> exists p, clip_triangle t n lo hi = Some (Some p) /\ hull3 (positions p) x.
Proof. exact clip_complete3. Qed.
Print Assumptions C46_complete.

(** Nothing is returned exactly for triangles in one of the faces. *)
Lemma clip_null t n lo hi : clip_triangle t n lo hi = Some None <-> exists k f, face lo hi k = Some f /\ forall c, In c (corners_of t) -> near f c.
Proof.
  rewrite clip_triangle_ok. destruct (existsb (aligned t lo hi) (seq 0 6)) eqn:Al.
  - split; [intros _|reflexivity]. apply existsb_exists in Al as (k & I & A). apply in_seq in I. assert (K : (k < 6)%nat) by lia. exists k, (axis_of k, plane_pos lo hi k).
    split; [apply face_all, K | apply (aligned_near t lo hi k _ (face_all lo hi k K)), A].
  - split; [discriminate|]. intros (k & f & F & N). exfalso. apply (aligned_near t lo hi k f F) in N. enough (existsb (aligned t lo hi) (seq 0 6) = true) by congruence.
    apply existsb_exists. exists k. split; [apply in_seq; destruct (face_plane lo hi k f F); lia | exact N].
Qed.
Theorem C46_null : forall t n lo hi, clip_triangle t n lo hi = Some None <-> exists k f, face lo hi k = Some f /\ forall c, In c (corners_of t) -> near f c.
Proof. exact clip_null. Qed.
Print Assumptions C46_null.

(** Vertices that are marked to be on a face are on it up to the tolerance. *)
Lemma clip_marks t n lo hi p v k : clip_triangle t n lo hi = Some (Some p) -> In v (p_vertices p) -> c_on v k = true -> exists f, face lo hi k = Some f /\ near f (c_pos v).
Proof.
  intros E I O. destruct (clip_cases t n lo hi p E) as [_ ->]. cbn [p_vertices] in I. apply in_map_iff in I as (w & <- & I).
  destruct (ws_marks t lo hi w k I O) as [K B]. exists (axis_of k, plane_pos lo hi k). split; [apply face_all, K|]. apply (near_dist lo hi k _ _ (face_all lo hi k K)). exact B.
Qed.
Theorem C46_marks : forall t n lo hi p v k, clip_triangle t n lo hi = Some (Some p) -> In v (p_vertices p) -> c_on v k = true -> exists f, face lo hi k = Some f /\ near f (c_pos v).
Proof. exact clip_marks. Qed.
Print Assumptions C46_marks.

(** The area vector of the polygon is a part of the one of the triangle. *)
Lemma poly_vector_ws t lo hi : poly_vector (map c_pos (map (emb t) (clip_all t (planes t lo hi) start))) = vscale (area_of (map w_q (clip_all t (planes t lo hi) start))) (area2 t).
Proof.
  destruct (ws_length t lo hi) as [_ [E|L]].
  - rewrite E. cbn. apply pt_eq. intros []; cbn; ring.
  - rewrite <- tris_vector by (rewrite map_length; exact L). apply (ws_tris t lo hi).
Qed.
Lemma clip_area3 t n lo hi p : clip_triangle t n lo hi = Some (Some p) -> exists f, 0 <= f <= 1 /\ poly_vector (positions p) = vscale f (area2 t) /\ poly_area (positions p) = f * tri_area t.
Proof.
  intros E. destruct (clip_cases t n lo hi p E) as [_ ->]. unfold positions, poly_area. cbn [p_vertices]. rewrite poly_vector_ws.
  destruct (ws_oriented t lo hi) as [O A]. assert (P := area_nonneg2 _ O). eexists. split; [split; [exact P | exact A]|]. split; [reflexivity|].
  rewrite norm_scale by exact P. unfold tri_area. fold (area2 t). ring.
Qed.
Theorem C46_area : forall t n lo hi p, clip_triangle t n lo hi = Some (Some p) ->
  exists f, 0 <= f <= 1 /\ poly_vector (positions p) = vscale f (area2 t) /\ poly_area (positions p) = f * tri_area t.
Proof. exact clip_area3. Qed.
Print Assumptions C46_area.

(** Clipping by the two sides of a face divides the area of the triangle, if no corner is within the tolerance. *)
Definition as_polygon (t : tri pt) : list cvert := map (fun p => CV p no_planes) (corners_of t).
Lemma clip_sides t d pos : (forall c, In c (corners_of t) -> plane_tol < Rabs (at_ d c - pos)) -> exists l r,
  clip_polygon (low_plane d) pos (as_polygon t) = Some l /\ clip_polygon (S (low_plane d)) pos (as_polygon t) = Some r /\
  (forall v, In v l -> pos - plane_tol <= at_ d (c_pos v)) /\ (forall v, In v r -> at_ d (c_pos v) <= pos + plane_tol) /\
  poly_area (map c_pos l) + poly_area (map c_pos r) = tri_area t.
Proof.
  intros F. assert (Es : as_polygon t = map (emb t) start) by (rewrite start_emb; reflexivity). rewrite Es.
  assert (Lk : forall k pos, (length (clipw t k pos start) <= 4)%nat) by (intros k pos'; exact (clipped_length _ _ _ _ _ (clipw_clipped t k pos' start start_convex))).
  exists (map (emb t) (clipw t (low_plane d) pos start)), (map (emb t) (clipw t (S (low_plane d)) pos start)).
  split; [apply polygon_ok; specialize (Lk (low_plane d) pos); lia|]. split; [apply polygon_ok; specialize (Lk (S (low_plane d)) pos); lia|].
  assert (Ins : forall k v, In v (map (emb t) (clipw t k pos start)) -> plane_dist k pos (c_pos v) <= plane_tol).
  { intros k v I. apply in_map_iff in I as (w & <- & I). apply (in_map w_q) in I. rewrite clipw_q in I. apply (clip_inside _ _ (hk_affine t k pos) (Rlt_le _ _ tol_pos) _ _ start_convex I). }
  split; [|split].
  - intros v I. specialize (Ins _ v I). unfold plane_dist in Ins. destruct d; cbn [low_plane Nat.even axis_of Nat.div2 at_] in *; lra.
  - intros v I. specialize (Ins _ v I). unfold plane_dist in Ins. destruct d; cbn [low_plane Nat.even axis_of Nat.div2 at_] in *; lra.
  - assert (V : forall k, poly_area (map c_pos (map (emb t) (clipw t k pos start))) = area_of (map w_q (clipw t k pos start)) * tri_area t).
    { intros k. assert (O : oriented (map w_q (clipw t k pos start))) by (rewrite clipw_q; apply clip_oriented; [apply hk_affine | apply Rlt_le, tol_pos | apply start_convex | apply start_oriented]).
      assert (P := area_nonneg2 _ O). unfold poly_area.
      assert (Ev : poly_vector (map c_pos (map (emb t) (clipw t k pos start))) = vscale (area_of (map w_q (clipw t k pos start))) (area2 t)).
      { destruct (tris2_spec _ O) as (_ & B & _). rewrite emb_pos. clear -B. set (l := map w_q (clipw t k pos start)) in *.
        destruct l as [|a l]; [cbn; apply pt_eq; intros []; cbn; ring|].
        unfold poly_vector. rewrite ring_map. unfold ring. rewrite ring_pairs. clear B. cbn [area_of]. rewrite last_cons.
        assert (G : forall m x, fold_right (fun ab acc => vadd (cross (fst ab) (snd ab)) acc) (Pt 0 0 0) (map (fun ab => (pos2 t (fst ab), pos2 t (snd ab))) (pairs x m)) =
          vadd (vscale (sh x m) (area2 t)) (cross (P1 t) (vsub (pos2 t (last m x)) (pos2 t x)))).
        { induction m as [|y m IH]; intros x.
          - cbn [pairs map fold_right sh last]. apply pt_eq. intros []; unfold vadd, vscale, cross, vsub; cbn [at_ px py pz]; ring.
          - cbn [pairs map fold_right sh fst snd]. rewrite IH, last_cons. set (z := last m y). unfold pos2, area2, vadd, vscale, cross, vsub, cr. apply pt_eq. intros []; cbn [at_ px py pz P1 P2 P3]; ring. }
        rewrite G, last_app. cbn [last]. assert (Sh : sh a (l ++ [a]) = sh (last l a) (a :: l)).
        { rewrite sh_app. cbn [sh]. ring. }
        rewrite Sh. apply pt_eq. intros []; unfold vadd, vscale, cross, vsub; cbn [at_ px py pz]; ring. }
      rewrite Ev, norm_scale by exact P. unfold tri_area. fold (area2 t). ring. }
    rewrite !V, !clipw_q, <- Rmult_plus_distr_r.
    assert (Eh : clip2 (hk t (S (low_plane d)) pos) plane_tol (map w_q start) = clip2 (fun q => - hk t (low_plane d) pos q) plane_tol (map w_q start)).
    { assert (Ext : forall q, hk t (S (low_plane d)) pos q = - hk t (low_plane d) pos q) by (intros q; unfold hk, plane_dist; destruct d; cbn [low_plane Nat.even axis_of Nat.div2]; ring).
      unfold clip2. rewrite <- (map_id (map w_q start)) at 2. rewrite <- (map_id (gclip _ _ _ (map w_q start))) at 1.
      apply (gclip_map (fun q => q)); [intros q; unfold sd2; rewrite Ext; reflexivity | intros a b; unfold inter2; rewrite !Ext; reflexivity | reflexivity]. }
    rewrite Eh, (both_sides (hk t (low_plane d) pos)); [rewrite start_area; ring | apply hk_affine | apply Rlt_le, tol_pos | apply start_convex|].
    intros v I. assert (M : In (pos2 t v) (corners_of t)).
    { assert (E0 := start_emb t). apply (f_equal (map c_pos)) in E0. rewrite emb_pos in E0. cbn [map c_pos] in E0. unfold corners_of. rewrite <- E0. apply in_map, I. }
    specialize (F _ M). unfold hk, plane_dist. destruct d; cbn [low_plane Nat.even axis_of Nat.div2 at_] in *; rewrite Rabs_minus_sym; exact F.
Qed.
Theorem C46_sides : forall t d pos, (forall c, In c (corners_of t) -> plane_tol < Rabs (at_ d c - pos)) -> exists l r,
  clip_polygon (low_plane d) pos (as_polygon t) = Some l /\ clip_polygon (S (low_plane d)) pos (as_polygon t) = Some r /\
  (forall v, In v l -> pos - plane_tol <= at_ d (c_pos v)) /\ (forall v, In v r -> at_ d (c_pos v) <= pos + plane_tol) /\
  poly_area (map c_pos l) + poly_area (map c_pos r) = tri_area t.
Proof. exact clip_sides. Qed.
Print Assumptions C46_sides.

(** Clipping by faces that all corners are behind of changes nothing. *)
Lemma clip_all_keep t l : (forall k pos c, In (k, pos) l -> In c (corners_of t) -> plane_dist k pos c < - plane_tol) -> clip_all t l start = start.
Proof.
  intros H. assert (K : forall k pos, In (k, pos) l -> clipw t k pos start = start).
  { intros k pos I. unfold clipw. assert (B : forall w, In w start -> behind (sdw t k pos) w = true).
    { intros w Iw. unfold behind, sdw, sd2. assert (M : In (pos2 t (w_q w)) (corners_of t)).
      { assert (E0 := start_emb t). apply (f_equal (map c_pos)) in E0. rewrite emb_pos in E0. cbn [map c_pos] in E0. unfold corners_of. rewrite <- E0. apply in_map, in_map, Iw. }
      specialize (H k pos _ I M). unfold hk. assert (P := tol_pos). destruct (Rlt_dec plane_tol _); [lra|]. destruct (Rlt_dec _ (- plane_tol)); [reflexivity | lra]. }
    cbn [gclip start]. apply path_behind; [apply B; cbn; tauto | exact B]. }
  clear H. induction l as [|[k pos] l IH]; [reflexivity|]. change (clip_all t ((k, pos) :: l) start) with (clip_all t l (clipw t k pos start)). rewrite K by (left; reflexivity).
  apply IH. intros k' pos' I. apply K. right; exact I.
Qed.
(** A triangle in the box by more than the tolerance is returned as it is. *)
Lemma clip_contained t n lo hi : (forall c, In c (corners_of t) -> strictly_inside lo hi c) -> exists p,
  clip_triangle t n lo hi = Some (Some p) /\ positions p = corners_of t /\ forall v k, In v (p_vertices p) -> c_on v k = false.
Proof.
  intros H. destruct (clip_complete3 t n lo hi (P1 t)) as (p & E & _).
  - exists 1, 0, 0. split; [lra|]. split; [lra|]. split; [lra|]. split; [lra|]. apply pt_eq. intros d. unfold vadd, vscale. destruct d; cbn [at_ px py pz]; ring.
  - apply H. left; reflexivity.
  - exists p. split; [exact E|]. destruct (clip_cases t n lo hi p E) as [_ ->]. unfold positions. cbn [p_vertices]. rewrite clip_all_keep.
    + split; [rewrite start_emb; reflexivity|]. intros v k I. rewrite start_emb in I. destruct I as [<-|[<-|[<-|[]]]]; reflexivity.
    + intros k pos c I J. apply planes_in in I as (K & -> & _). specialize (H c J). assert (A := H AX). assert (B := H AY). assert (C := H AZ). unfold plane_dist.
      destruct k as [|[|[|[|[|[|k]]]]]]; try lia; cbn [Nat.even plane_pos axis_of Nat.div2 at_] in *; lra.
Qed.
Theorem C46_contained : forall t n lo hi, (forall c, In c (corners_of t) -> strictly_inside lo hi c) -> exists p,
  clip_triangle t n lo hi = Some (Some p) /\ positions p = corners_of t /\ forall v k, In v (p_vertices p) -> c_on v k = false.
Proof. exact clip_contained. Qed.
Print Assumptions C46_contained.
(** A triangle on the other side of a face is returned as it is, although it is not in the box (the header promises that
    nothing is returned). *)
Definition far_triangle : tri pt := Tri (Pt 2 (1/4) (1/4)) (Pt 3 (1/4) (1/2)) (Pt 2 (3/4) (3/4)).
Lemma tol_small : 0 < plane_tol < 1/100.
Proof.
  split; [exact tol_pos|]. unfold plane_tol, zerotol. assert (H : / 10 ^ 14 <= / 10 ^ 4) by (apply Rinv_le_contravar; [lra | apply Rle_pow; [lra | lia]]).
  assert (E : / 10 ^ 4 = 1 / 10000) by (field). lra.
Qed.
Lemma outside_kept n : exists p, clip_triangle far_triangle n (Pt 0 0 0) (Pt 1 1 1) = Some (Some p) /\ positions p = corners_of far_triangle /\
  (forall c, In c (corners_of far_triangle) -> 1 + 1 <= px c) /\ 0 < tri_area far_triangle.
Proof.
  assert (Ts := tol_small). rewrite clip_triangle_ok.
  destruct (existsb (aligned far_triangle (Pt 0 0 0) (Pt 1 1 1)) (seq 0 6)) eqn:Al.
  - exfalso. apply existsb_exists in Al as (k & I & A). apply in_seq in I. assert (K : (k < 6)%nat) by lia.
    assert (N := proj1 (aligned_near _ _ _ k _ (face_all _ _ k K)) A). assert (N1 := N _ (or_introl eq_refl)). 
    unfold near, Rabs in N1. destruct k as [|[|[|[|[|[|k]]]]]]; try lia; cbn [fst snd axis_of Nat.div2 plane_pos Nat.even at_ far_triangle P1 px py pz] in N1; destruct (Rcase_abs _) in N1; lra.
  - eexists. split; [reflexivity|]. unfold positions. cbn [p_vertices]. rewrite clip_all_keep.
    + split; [rewrite start_emb; reflexivity|]. split; [intros c [<-|[<-|[<-|[]]]]; cbn; lra|].
      unfold tri_area, norm. apply Rmult_lt_0_compat; [lra|]. apply sqrt_lt_R0. unfold dot, cross, vsub, far_triangle. cbn [P1 P2 P3 px py pz]. lra.
    + intros k pos c I J. apply planes_in in I as (K & -> & U). assert (Tm : tri_min far_triangle AX = 2) by (unfold tri_min, far_triangle, Rmin; cbn [P1 P2 P3 at_ px]; repeat destruct (Rle_dec _ _); lra).
      destruct k as [|[|[|[|[|[|k]]]]]]; try lia; cbn [used Nat.even plane_pos axis_of Nat.div2 at_ px py pz] in U; unfold plane_dist; cbn [Nat.even plane_pos axis_of Nat.div2 at_ px py pz];
        try (rewrite Tm in U; destruct (Rlt_dec 2 1); [lra | discriminate]); destruct J as [<-|[<-|[<-|[]]]]; cbn [far_triangle P1 P2 P3 px py pz]; lra.
Qed.
Theorem C46_outside_refuted : forall n, exists p, clip_triangle far_triangle n (Pt 0 0 0) (Pt 1 1 1) = Some (Some p) /\ positions p = corners_of far_triangle /\
  (forall c, In c (corners_of far_triangle) -> 1 + 1 <= px c) /\ 0 < tri_area far_triangle.
Proof. exact outside_kept. Qed.
Print Assumptions C46_outside_refuted.

(** A triangle through the unit box. *)
Definition wide : tri pt := Tri (Pt (-1) (1/4) (1/2)) (Pt 3 (1/4) (1/2)) (Pt (1/2) 2 (1/2)).
Example C46_example : in_triangle wide (Pt (1/2) (3/4) (1/2)) /\ strictly_inside (Pt 0 0 0) (Pt 1 1 1) (Pt (1/2) (3/4) (1/2)) /\
  (forall d, reaches_low (Pt 0 0 0) wide d /\ reaches_high (Pt 1 1 1) wide d) /\ (forall c, In c (corners_of wide) -> plane_tol < Rabs (at_ AX c - 1/4)) /\
  exists p, clip_triangle wide (Pt 0 0 1) (Pt 0 0 0) (Pt 1 1 1) = Some (Some p) /\ p_vertices p <> [].
Proof.
  assert (Ts := tol_small). assert (A : in_triangle wide (Pt (1/2) (3/4) (1/2))).
  { exists (25/56), (15/56), (2/7). split; [lra|]. split; [lra|]. split; [lra|]. split; [lra|]. apply pt_eq. intros []; unfold wide, vadd, vscale; cbn [P1 P2 P3 at_ px py pz]; field. }
  assert (B : strictly_inside (Pt 0 0 0) (Pt 1 1 1) (Pt (1/2) (3/4) (1/2))) by (intros []; cbn; lra).
  split; [exact A|]. split; [exact B|]. split; [|split].
  - intros d. split; exists (match d with AX => P3 wide | _ => P1 wide end); destruct d; cbn; split; try tauto; lra.
  - intros c [<-|[<-|[<-|[]]]]; cbn; unfold Rabs; destruct (Rcase_abs _); lra.
  - destruct (C46_complete wide (Pt 0 0 1) _ _ _ A B) as (p & E & H). exists p. split; [exact E|]. intros Z. unfold positions in H. rewrite Z in H.
    apply (H (fun _ => False)); [intros p0 q s []|intros v []].
Qed.

(** *** C47 *)
(** Adding a polygon to a mesh, for all polygons: it raises exactly for a triangle with all vertices on one face. Otherwise the
    mesh stays well formed, keeps its triangles and edges, the new triangles have the normal of the polygon, their area
    vectors add up to the one of the polygon, and the new edges of a face are the edges of the polygon on this face. *)
Definition in_one_face (p : polygon) : Prop := length (p_vertices p) = 3%nat /\ exists k, (k < 6)%nat /\ forall v, In v (p_vertices p) -> c_on v k = true.
Definition edges_of (p : polygon) (k : nat) : list (option (pt * pt * pt)) :=
  map (fun ab => Some (c_pos (fst ab), c_pos (snd ab), p_normal p)) (filter (fun ab => c_on (fst ab) k && c_on (snd ab) k) (ring (p_vertices p))).
Lemma in_one_face_blocked p : in_one_face p <-> blocked p.
Proof.
  unfold in_one_face, blocked, all_on. split; intros [L (k & K & A)]; (split; [exact L|]; exists k; split; [exact K|]).
  - apply forallb_forall. exact A.
  - apply forallb_forall. exact A.
Qed.
Lemma add_polygon p m l : cm_ok m -> visit_n (cm_mesh m) = Some l ->
  (in_one_face p -> add_to_mesh p m = None) /\
  (~ in_one_face p -> (3 <= length (p_vertices p))%nat -> exists m' new, add_to_mesh p m = Some m' /\ cm_ok m' /\
    visit_n (cm_mesh m') = Some (l ++ map (fun t => (t, p_normal p)) new) /\ vsum (map area2 new) = poly_vector (positions p) /\
    forall k, (k < 6)%nat -> edges_on m' k = edges_on m k ++ edges_of p k).
Proof.
  intros O V. split.
  - intros B. apply blocked_none, in_one_face_blocked, B.
  - intros B L. assert (B' : ~ blocked p) by (intros X; apply B, in_one_face_blocked, X). destruct (add_to_mesh_ok p m l O V B') as (m' & E & O' & V' & Ed).
    exists m', (poly_tris (p_vertices p)). split; [exact E|]. split; [exact O'|]. split; [exact V'|]. split; [apply tris_vector, L|].
    intros k K. rewrite (Ed k K). f_equal. unfold poly_edges, edges_of. destruct (p_vertices p) as [|a [|b [|c r]]]; cbn [length] in L; try lia. reflexivity.
Qed.
Theorem C47_polygon : forall p m l, cm_ok m -> visit_n (cm_mesh m) = Some l ->
  (in_one_face p -> add_to_mesh p m = None) /\
  (~ in_one_face p -> (3 <= length (p_vertices p))%nat -> exists m' new, add_to_mesh p m = Some m' /\ cm_ok m' /\
    visit_n (cm_mesh m') = Some (l ++ map (fun t => (t, p_normal p)) new) /\ vsum (map area2 new) = poly_vector (positions p) /\
    forall k, (k < 6)%nat -> edges_on m' k = edges_on m k ++ edges_of p k).
Proof. exact add_polygon. Qed.
Print Assumptions C47_polygon.

(** For polygons from clipping nothing is raised, and the triangles are pieces of the triangle that cover the polygon and
    have its area. *)
Lemma hull3_pos t l x : hull3 (map (pos2 t) l) x -> exists q, x = pos2 t q /\ hull l q.
Proof.
  intros H. apply (H (fun x => exists q, x = pos2 t q /\ hull l q)).
  - intros p q s (u & -> & U) (v & -> & W) S. exists (mix s u v). split; [symmetry; apply pos2_mix' | apply hull_convex; assumption].
  - intros v I. apply in_map_iff in I as (q & <- & I). exists q. split; [reflexivity | apply hull_in, I].
Qed.
Lemma add_clipped t n lo hi p m l : clip_triangle t n lo hi = Some (Some p) -> cm_ok m -> visit_n (cm_mesh m) = Some l -> exists m' new,
  add_to_mesh p m = Some m' /\ cm_ok m' /\ visit_n (cm_mesh m') = Some (l ++ map (fun s => (s, n)) new) /\
  (forall s, In s new -> piece_of s t) /\ sum tri_area new = poly_area (positions p) /\
  (forall x, hull3 (positions p) x -> exists s, In s new /\ in_triangle s x) /\
  (forall s x, In s new -> in_triangle s x -> hull3 (positions p) x) /\
  forall k, (k < 6)%nat -> edges_on m' k = edges_on m k ++ edges_of p k.
Proof.
  intros E O V. destruct (clip_cases t n lo hi p E) as [_ ->]. assert (Nb := ws_not_blocked t lo hi n).
  destruct (add_to_mesh_ok _ m l O V Nb) as (m' & E' & O' & V' & Ed). exists m', (poly_tris (map (emb t) (clip_all t (planes t lo hi) start))).
  destruct (ws_tris t lo hi) as (A & B & C & D). split; [exact E'|]. split; [exact O'|]. split; [exact V'|]. split; [exact A|]. split; [|split; [|split]].
  - rewrite B. unfold positions, poly_area. cbn [p_vertices]. rewrite poly_vector_ws. destruct (ws_oriented t lo hi) as [Or _].
    rewrite norm_scale by (apply area_nonneg2, Or). unfold tri_area. fold (area2 t). ring.
  - intros x X. unfold positions in X. cbn [p_vertices] in X. rewrite emb_pos in X. apply hull3_pos in X as (q & -> & Q). apply C, Q.
  - intros s x I X. unfold positions. cbn [p_vertices]. rewrite emb_pos. rewrite tris_pos in I. apply in_map_iff in I as ([[a b] c] & <- & I).
    destruct (ws_oriented t lo hi) as [Or _]. destruct (tris2_spec _ Or) as (T & _ & _). destruct (T a b c I) as (Ha & Hb & Hc & _).
    assert (In3 : forall C : pt -> Prop, (forall p q s, C p -> C q -> 0 <= s <= 1 -> C (vadd (vscale (1 - s) p) (vscale s q))) -> C (pos2 t a) -> C (pos2 t b) -> C (pos2 t c) -> C x).
    { intros K HK Ka Kb Kc. destruct (triangle_hull (tri2 t (a, b, c)) x X) as (q & -> & Q). apply (Q (fun q => K (pos2 (tri2 t (a, b, c)) q))).
      - intros u v r Hu Hv Hr. rewrite pos2_mix'. apply HK; assumption.
      - intros v Iv. assert (M : In (pos2 (tri2 t (a, b, c)) v) (corners_of (tri2 t (a, b, c)))).
        { assert (E0 := start_emb (tri2 t (a, b, c))). apply (f_equal (map c_pos)) in E0. rewrite emb_pos in E0. cbn [map c_pos] in E0. unfold corners_of. rewrite <- E0. apply in_map, Iv. }
        destruct M as [<-|[<-|[<-|[]]]]; assumption. }
    intros K HK I'. apply In3; [exact HK | exact (hull_pos t _ _ Ha K HK I') | exact (hull_pos t _ _ Hb K HK I') | exact (hull_pos t _ _ Hc K HK I')].
  - intros k K. rewrite (Ed k K). f_equal. cbn [p_vertices p_normal]. unfold poly_edges, edges_of. cbn [p_vertices p_normal].
    destruct (ws_length t lo hi) as [_ [Z|L]]; [rewrite Z; reflexivity|]. rewrite <- (map_length (emb t)) in L.
    destruct (map (emb t) (clip_all t (planes t lo hi) start)) as [|a [|b [|c r]]]; cbn [length] in L; try lia. reflexivity.
Qed.
Theorem C47_clipped : forall t n lo hi p m l, clip_triangle t n lo hi = Some (Some p) -> cm_ok m -> visit_n (cm_mesh m) = Some l -> exists m' new,
  add_to_mesh p m = Some m' /\ cm_ok m' /\ visit_n (cm_mesh m') = Some (l ++ map (fun s => (s, n)) new) /\
  (forall s, In s new -> piece_of s t) /\ sum tri_area new = poly_area (positions p) /\
  (forall x, hull3 (positions p) x -> exists s, In s new /\ in_triangle s x) /\
  (forall s x, In s new -> in_triangle s x -> hull3 (positions p) x) /\
  forall k, (k < 6)%nat -> edges_on m' k = edges_on m k ++ edges_of p k.
Proof. exact add_clipped. Qed.
Print Assumptions C47_clipped.

(** Clipping a mesh: defined for every well-formed mesh and every list of its triangles. The result is well formed; its
    triangles are pieces of the clipped ones with their normals and not more area; every point of the clipped triangles in the
    box by more than the tolerance is in the result; and its edges on a face are on this face. *)
Definition clipped_into (lo hi : pt) (q : tri pt * pt) (new : list (tri pt * pt)) : Prop :=
  (forall s, In s new -> snd s = snd q /\ piece_of (fst s) (fst q)) /\
  (forall s c d, In s new -> In c (corners_of (fst s)) ->
    (reaches_low lo (fst q) d -> at_ d lo - plane_tol <= at_ d c) /\ (reaches_high hi (fst q) d -> at_ d c <= at_ d hi + plane_tol)) /\
  sum (fun s => tri_area (fst s)) new <= tri_area (fst q) /\
  (forall x, in_triangle (fst q) x -> strictly_inside lo hi x -> exists s, In s new /\ in_triangle (fst s) x).
Definition edge_within (lo hi : pt) (l : list (tri pt * pt)) (k : nat) (e : option (pt * pt * pt)) : Prop :=
  exists a b n t f, e = Some (a, b, n) /\ In (t, n) l /\ in_triangle t a /\ in_triangle t b /\ face lo hi k = Some f /\ near f a /\ near f b.
Lemma hull3_bound d c0 l x : (forall v, In v l -> c0 <= at_ d v) -> hull3 l x -> c0 <= at_ d x.
Proof.
  intros H X. apply (X (fun p => c0 <= at_ d p)); [|exact H]. intros p q s Hp Hq Hs.
  assert (E : at_ d (vadd (vscale (1 - s) p) (vscale s q)) = (1 - s) * at_ d p + s * at_ d q) by (destruct d; reflexivity). rewrite E. nra.
Qed.
Lemma hull3_bound' d c0 l x : (forall v, In v l -> at_ d v <= c0) -> hull3 l x -> at_ d x <= c0.
Proof.
  intros H X. apply (X (fun p => at_ d p <= c0)); [|exact H]. intros p q s Hp Hq Hs.
  assert (E : at_ d (vadd (vscale (1 - s) p) (vscale s q)) = (1 - s) * at_ d p + s * at_ d q) by (destruct d; reflexivity). rewrite E. nra.
Qed.
Lemma corner_in t c : In c (corners_of t) -> in_triangle t c.
Proof. intros [<-|[<-|[<-|[]]]]; [exists 1, 0, 0 | exists 0, 1, 0 | exists 0, 0, 1]; (split; [lra|]; split; [lra|]; split; [lra|]; split; [lra|]; apply pt_eq; intros d; unfold vadd, vscale; destruct d; cbn [at_ px py pz]; ring). Qed.
Lemma clip_one_ok lo hi q m l : cm_ok m -> visit_n (cm_mesh m) = Some l -> exists m' new,
  clip_one lo hi q m = Some m' /\ cm_ok m' /\ visit_n (cm_mesh m') = Some (l ++ new) /\ clipped_into lo hi q new /\
  forall k, (k < 6)%nat -> exists es, edges_on m' k = edges_on m k ++ es /\ Forall (edge_within lo hi [q] k) es.
Proof.
  intros O V. destruct q as [t n]. unfold clip_one. cbn [fst snd]. destruct (clip_safe t n lo hi) as (r & E & _). rewrite E. destruct r as [p|].
  - destruct (add_clipped t n lo hi p m l E O V) as (m' & new & E' & O' & V' & Pc & Ar & Cv & Cv' & Ed).
    exists m', (map (fun s => (s, n)) new). split; [exact E'|]. split; [exact O'|]. split; [exact V'|]. split.
    + split; [|split; [|split]].
      * intros s I. apply in_map_iff in I as (s' & <- & I). cbn [fst snd]. split; [reflexivity | apply Pc, I].
      * intros s c d I Ic. apply in_map_iff in I as (s' & <- & I). cbn [fst snd] in *. assert (H := Cv' s' c I (corner_in s' c Ic)).
        split; intros Rc; [apply (hull3_bound d _ (positions p)); [|exact H] | apply (hull3_bound' d _ (positions p)); [|exact H]]; intros v Iv;
          destruct (clip_within t n lo hi p v E Iv) as [_ B]; destruct (B d) as [B1 B2]; auto.
      * rewrite sum_map. cbn [fst]. change (sum tri_area new <= tri_area t). rewrite Ar. destruct (clip_area3 t n lo hi p E) as (f & F & _ & ->). assert (P := area_nonneg t). nra.
      * cbn [fst]. intros x T S. destruct (clip_complete3 t n lo hi x T S) as (p' & E2 & H). assert (p' = p) as -> by congruence.
        destruct (Cv x H) as (s & I & X). exists (s, n). split; [apply in_map_iff; exists s; split; [reflexivity | exact I] | exact X].
    + intros k K. exists (edges_of p k). split; [exact (Ed k K)|]. apply Forall_forall. intros e I. unfold edges_of in I. apply in_map_iff in I as ([a b] & <- & I). apply filter_In in I as [I Ab].
      cbn [fst snd] in *. apply andb_prop in Ab as [Oa Ob]. destruct (ring_in _ a b I) as [Ia Ib].
      destruct (clip_marks t n lo hi p a k E Ia Oa) as (f & F & Na). destruct (clip_marks t n lo hi p b k E Ib Ob) as (f' & F' & Nb). assert (f' = f) as -> by congruence.
      destruct (clip_cases t n lo hi p E) as [_ Ep]. exists (c_pos a), (c_pos b), (p_normal p), t, f. split; [reflexivity|].
      assert (Hn : p_normal p = n) by (rewrite Ep; reflexivity). rewrite Hn. split; [left; reflexivity|].
      split; [apply (clip_within t n lo hi p (c_pos a) E); apply in_map, Ia|]. split; [apply (clip_within t n lo hi p (c_pos b) E); apply in_map, Ib|]. split; [exact F|]. split; assumption.
  - exists m, []. split; [reflexivity|]. split; [exact O|]. split; [rewrite app_nil_r; exact V|]. split.
    + split; [intros s []|]. split; [intros s c d []|]. split; [cbn [sum fst]; apply area_nonneg|]. cbn [fst]. intros x T S. exfalso.
      destruct (clip_complete3 t n lo hi x T S) as (p & E2 & _). congruence.
    + intros k K. exists []. split; [rewrite app_nil_r; reflexivity | constructor].
Qed.
Lemma edge_within_mono lo hi l l' k e : (forall q, In q l -> In q l') -> edge_within lo hi l k e -> edge_within lo hi l' k e.
Proof. intros H (a & b & n & t & f & E & I & R). exists a, b, n, t, f. split; [exact E|]. split; [apply H, I | exact R]. Qed.
Lemma clip_fold lo hi ql : forall m l, cm_ok m -> visit_n (cm_mesh m) = Some l -> exists m' news,
  fold_left (fun m q => and_then m (clip_one lo hi q)) ql (Some m) = Some m' /\ cm_ok m' /\ visit_n (cm_mesh m') = Some (l ++ concat news) /\ Forall2 (clipped_into lo hi) ql news /\
  forall k, (k < 6)%nat -> exists es, edges_on m' k = edges_on m k ++ es /\ Forall (edge_within lo hi ql k) es.
Proof.
  induction ql as [|q ql IH]; intros m l O V; cbn [fold_left].
  - exists m, []. split; [reflexivity|]. split; [exact O|]. split; [cbn [concat]; rewrite app_nil_r; exact V|]. split; [constructor|]. intros k _. exists []. split; [rewrite app_nil_r; reflexivity | constructor].
  - destruct (clip_one_ok lo hi q m l O V) as (m1 & new & E & O1 & V1 & C1 & Ed1). cbn [and_then]. rewrite E.
    destruct (IH m1 _ O1 V1) as (m' & news & E' & O' & V' & C' & Ed'). exists m', (new :: news). split; [exact E'|]. split; [exact O'|].
    split; [rewrite V'; cbn [concat]; rewrite app_assoc; reflexivity|]. split; [constructor; assumption|]. intros k K.
    destruct (Ed1 k K) as (es1 & A1 & B1). destruct (Ed' k K) as (es' & A' & B'). exists (es1 ++ es'). split; [rewrite A', A1, app_assoc; reflexivity|].
    apply Forall_app. split; [revert B1 | revert B']; apply Forall_impl; intros e; apply edge_within_mono; [intros x [<-|[]]; left; reflexivity | intros x I; right; exact I].
Qed.
Lemma clip_mesh_ok src ids lo hi : well_formed src -> (forall i, In i ids -> (i < num_triangles src)%nat) -> exists l m' news,
  visit_list (triangle_n src) ids = Some l /\ clip_mesh src ids lo hi = Some m' /\ cm_ok m' /\ visit_n (cm_mesh m') = Some (concat news) /\ Forall2 (clipped_into lo hi) l news /\
  forall k, (k < 6)%nat -> Forall (edge_within lo hi l k) (edges_on m' k).
Proof.
  intros W I. assert (Vl : exists l, visit_list (triangle_n src) ids = Some l).
  { clear lo hi. induction ids as [|i ids IH]; [exists []; reflexivity|]. destruct IH as [l El]; [intros j J; apply I; right; exact J|].
    assert (T := triangle_n_ok src i W (I i (or_introl eq_refl))). cbn [visit_list]. destruct (triangle_n src i) as [q|]; [|congruence]. rewrite El. exists (q :: l). reflexivity. }
  destruct Vl as [l El]. assert (Oe : cm_ok empty_cmesh) by (split; [apply empty_wf | constructor]).
  destruct (clip_fold lo hi l empty_cmesh [] Oe eq_refl) as (m' & news & E & O & V & C & Ed).
  exists l, m', news. split; [exact El|]. split; [|split; [exact O|]; split; [exact V|]; split; [exact C|]].
  - unfold clip_mesh. rewrite El. cbn [and_then]. rewrite E. cbn [and_then]. destruct (0 <? num_triangles (cm_mesh m'))%nat; [|reflexivity].
    assert (Ck := proj2 (check_iff (cm_mesh m')) (proj1 O)). rewrite Ck. reflexivity.
  - intros k K. destruct (Ed k K) as (es & A & B). rewrite A. exact B.
Qed.
Theorem C47_clip_mesh : forall src ids lo hi, well_formed src -> (forall i, In i ids -> (i < num_triangles src)%nat) -> exists l m' news,
  visit_list (triangle_n src) ids = Some l /\ clip_mesh src ids lo hi = Some m' /\ cm_ok m' /\ visit_n (cm_mesh m') = Some (concat news) /\ Forall2 (clipped_into lo hi) l news /\
  forall k, (k < 6)%nat -> Forall (edge_within lo hi l k) (edges_on m' k).
Proof. exact clip_mesh_ok. Qed.
Print Assumptions C47_clip_mesh.
Definition wide_mesh : mesh pt := Mesh [Pt (-1) (1/4) (1/2); Pt 3 (1/4) (1/2); Pt (1/2) 2 (1/2); Pt 2 (-1) 0] [(0, 1, 2)%nat; (0, 3, 1)%nat] [Pt 0 0 1; Pt 0 0 1].
Example C47_example : well_formed wide_mesh /\ (forall i, In i [0; 1]%nat -> (i < num_triangles wide_mesh)%nat) /\
  exists m' s, clip_mesh wide_mesh [0; 1]%nat (Pt 0 0 0) (Pt 1 1 1) = Some m' /\ visit_n (cm_mesh m') <> None /\ (exists l, visit_n (cm_mesh m') = Some l /\ In s l).
Proof.
  assert (W : well_formed wide_mesh) by (split; [reflexivity | repeat constructor; cbn; lia]).
  assert (I : forall i, In i [0; 1]%nat -> (i < num_triangles wide_mesh)%nat) by (intros i [<-|[<-|[]]]; cbn; lia).
  split; [exact W|]. split; [exact I|]. destruct (C47_clip_mesh wide_mesh [0; 1]%nat (Pt 0 0 0) (Pt 1 1 1) W I) as (l & m' & news & El & E & _ & V & C & _).
  destruct C46_example as (A & B & _). cbn in El. injection El as <-. inversion C as [|q0 new ql news' C1 C2]; subst. destruct C1 as (_ & _ & _ & Cv). destruct (Cv _ A B) as (s & Is & _).
  exists m', s. split; [exact E|]. split; [congruence|]. exists (concat (new :: news')). split; [exact V|]. cbn [concat]. apply in_or_app. left. exact Is.
Qed.
