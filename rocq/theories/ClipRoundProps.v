(** Property C77: the clipping of triangles computed in double precision. *)
From Coq Require Import Reals ZArith List Arith Bool Lia Lra.
From Flocq Require Import Core Relative.
From Verif Require Import Geo MappingModel TrimmedQuadModel MeshModel MeshGeoModel ClipModel GridRoundModel GridRoundProofs GridRoundProps ClipProps ClipRoundModel ClipRoundProofs.
Import ListNotations.
Local Open Scope R_scope.

(** ** Specification. *)
(** The tolerance of the faces, with a thousandth for its own rounding: 1.001e-13. *)
Definition face_tol : R := 1001 / 10 ^ 16.
(** Size of the coordinates of a triangle, and one unit of error: 2^-50 of it. *)
Definition extent (t : tri pt) (d : axis) : R := Rmax (Rmax (Rabs (at_ d (P1 t))) (Rabs (at_ d (P2 t)))) (Rabs (at_ d (P3 t))).
Definition err (t : tri pt) (d : axis) : R := extent t d / 1125899906842624 + 16 * bpow radix2 (-1074).
Definition double_triangle (t : tri pt) : Prop := forall c, In c (corners_of t) -> doubles c.

Lemma face_tol_eq : wide_tol = face_tol. Proof. unfold wide_tol, face_tol, plane_tol, zerotol. lra. Qed.
Lemma extent_pos t d : 0 <= extent t d. Proof. unfold extent. eapply Rle_trans; [apply (Rabs_pos (at_ d (P3 t)))|apply Rmax_r]. Qed.
Lemma err_pos t d : 0 < err t d. Proof. pose proof (extent_pos t d). pose proof tiny_pos. unfold err. lra. Qed.
Lemma step_small t d : step_error (extent t d + 6 * err t d) <= err t d.
Proof.
  pose proof (extent_pos t d). pose proof (err_pos t d) as P. pose proof tiny_pos. pose proof u_small as U. unfold step_error. assert (A : u * err t d <= 1 / 1000000 * err t d) by (apply Rmult_le_compat_r; lra).
  assert (B : err t d = 8 * u * extent t d + 16 * bpow radix2 (-1074)) by (unfold err, u; lra). assert (0 <= u * extent t d) by (apply Rmult_le_pos; lra). lra.
Qed.
Lemma tri_range t d : - extent t d <= tri_min t d /\ tri_max t d <= extent t d.
Proof.
  unfold extent, tri_min, tri_max. set (a := at_ d (P1 t)). set (b := at_ d (P2 t)). set (c := at_ d (P3 t)). pose proof (Rmax_l (Rabs a) (Rabs b)). pose proof (Rmax_r (Rabs a) (Rabs b)). pose proof (Rmax_l (Rmax (Rabs a) (Rabs b)) (Rabs c)). pose proof (Rmax_r (Rmax (Rabs a) (Rabs b)) (Rabs c)).
  pose proof (Rle_abs a). pose proof (Rle_abs b). pose proof (Rle_abs c). pose proof (Rle_abs (- a)) as A. pose proof (Rle_abs (- b)) as B. pose proof (Rle_abs (- c)) as C. rewrite Rabs_Ropp in A, B, C. split; [repeat apply Rmin_glb; lra|repeat apply Rmax_lub; lra].
Qed.
Lemma corner_range t d c : In c (corners_of t) -> tri_min t d <= at_ d c <= tri_max t d.
Proof.
  intros [<-|[<-|[<-|[]]]]; unfold tri_min, tri_max; set (a := at_ d (P1 t)); set (b := at_ d (P2 t)); set (c := at_ d (P3 t)); pose proof (Rmin_l (Rmin a b) c); pose proof (Rmin_r (Rmin a b) c); pose proof (Rmin_l a b); pose proof (Rmin_r a b);
  pose proof (Rmax_l (Rmax a b) c); pose proof (Rmax_r (Rmax a b) c); pose proof (Rmax_l a b); pose proof (Rmax_r a b); lra.
Qed.
Lemma min_corner t d : exists c, In c (corners_of t) /\ tri_min t d = at_ d c.
Proof. unfold tri_min. apply (Rmin_case _ _ (fun x => exists c, In c (corners_of t) /\ x = at_ d c)); [apply (Rmin_case _ _ (fun x => exists c, In c (corners_of t) /\ x = at_ d c)); [exists (P1 t)|exists (P2 t)]|exists (P3 t)]; cbn; auto. Qed.
Lemma max_corner t d : exists c, In c (corners_of t) /\ tri_max t d = at_ d c.
Proof. unfold tri_max. apply (Rmax_case _ _ (fun x => exists c, In c (corners_of t) /\ x = at_ d c)); [apply (Rmax_case _ _ (fun x => exists c, In c (corners_of t) /\ x = at_ d c)); [exists (P1 t)|exists (P2 t)]|exists (P3 t)]; cbn; auto. Qed.

(** ** The six planes. *)
Section Planes.
Variable contract : bool. Variable t : tri pt. Variables lo hi : pt.
Hypothesis Hlo : doubles lo. Hypothesis Hhi : doubles hi.
Notation e := (err t).
Definition at_least (d : axis) (l : R) (cur : list cvert) : Prop := Forall (fun v => l <= at_ d (c_pos v)) cur.
Definition at_most (d : axis) (h : R) (cur : list cvert) : Prop := Forall (fun v => at_ d (c_pos v) <= h) cur.
Definition good (s : nat) (cur : list cvert) : Prop := Forall (fun v => (forall d, is_double (at_ d (c_pos v)) /\ tri_min t d - INR s * e d <= at_ d (c_pos v) <= tri_max t d + INR s * e d) /\
  (forall j, c_on v j = true -> (j < 6)%nat /\ Rabs (at_ (axis_of j) (c_pos v) - plane_pos lo hi j) <= wide_tol + INR s * e (axis_of j))) cur.
Definition shift (r : R) (prev cur : list cvert) : Prop := forall d x, (at_least d x prev -> at_least d (x - r * e d) cur) /\ (at_most d x prev -> at_most d (x + r * e d) cur).
Lemma weaken_le d x y cur : x <= y -> at_most d x cur -> at_most d y cur. Proof. intros L. apply Forall_impl. intros v H. lra. Qed.
Lemma weaken_ge d x y cur : y <= x -> at_least d x cur -> at_least d y cur. Proof. intros L. apply Forall_impl. intros v H. lra. Qed.
Lemma shift_self r cur : 0 <= r -> shift r cur cur.
Proof. intros H d x. pose proof (err_pos t d). assert (0 <= r * e d) by (apply Rmult_le_pos; lra). split; [apply weaken_ge|apply weaken_le]; lra. Qed.
Lemma shift_trans r s a b c : shift r a b -> shift s b c -> shift (r + s) a c.
Proof.
  intros H K d x. split; intros A; [eapply weaken_ge; [|apply (proj1 (K d (x - r * e d))), (proj1 (H d x)), A]|eapply weaken_le; [|apply (proj2 (K d (x + r * e d))), (proj2 (H d x)), A]]; lra.
Qed.
Lemma good_more s cur : good s cur -> good (S s) cur.
Proof.
  apply Forall_impl. intros v [A B]. rewrite S_INR. split.
  - intros d. pose proof (err_pos t d). destruct (A d) as [D R0]. split; [exact D|lra].
  - intros j M. pose proof (err_pos t (axis_of j)). destruct (B j M) as [J R0]. split; [exact J|lra].
Qed.
Definition bound (d : axis) : R := extent t d + 6 * e d.
Lemma good_sane s cur : (s <= 6)%nat -> good s cur -> Forall (sane bound) cur.
Proof.
  intros Hs. apply Forall_impl. intros v [A _] d. destruct (A d) as [D R0]. split; [exact D|]. pose proof (err_pos t d). destruct (tri_range t d). apply le_INR in Hs. cbn [INR] in Hs. assert (INR s * e d <= 6 * e d) by (apply Rmult_le_compat_r; lra). unfold bound. apply Rabs_le. lra.
Qed.
Lemma plane_double k : is_double (plane_pos lo hi k). Proof. unfold plane_pos. destruct (Nat.even k); [apply Hlo|apply Hhi]. Qed.
Definition side_of (k : nat) (cur : list cvert) : Prop := if Nat.even k then at_least (axis_of k) (plane_pos lo hi k - wide_tol) cur else at_most (axis_of k) (plane_pos lo hi k + wide_tol) cur.
Lemma plane_step s k prev : (s < 6)%nat -> (k < 6)%nat -> good s prev -> fine (fun cur => good (S s) cur /\ shift 1 prev cur /\ side_of k cur) (clip_polygon_d contract k (plane_pos lo hi k) prev).
Proof.
  intros Hs Hk G. pose proof (polygon_fine contract k (plane_pos lo hi k) prev) as F. pose proof (good_sane s prev ltac:(lia) G) as Sn. destruct (clip_polygon_d contract k (plane_pos lo hi k) prev) as [cur| |]; cbn [fine] in *; [|exact F|exact I].
  assert (Sh : shift 1 prev cur).
  { intros d x. pose proof (step_small t d) as St. split; intros H; apply Forall_forall; intros v Iv; rewrite Forall_forall in F.
    - pose proof (origin_ge contract bound k _ prev d x v Sn H (F v Iv)) as Q. unfold bound in Q. lra.
    - pose proof (origin_le contract bound k _ prev d x v Sn H (F v Iv)) as Q. unfold bound in Q. lra. }
  split; [|split; [exact Sh|]].
  - assert (Lg : forall d, at_least d (tri_min t d - INR s * e d) prev) by (intros d; eapply Forall_impl; [|exact G]; intros v [A _]; apply A).
    assert (Lm : forall d, at_most d (tri_max t d + INR s * e d) prev) by (intros d; eapply Forall_impl; [|exact G]; intros v [A _]; apply A).
    assert (Mk : Forall (fun v => forall j, c_on v j = true -> (j < 6)%nat /\ Rabs (at_ (axis_of j) (c_pos v) - plane_pos lo hi j) <= wide_tol + INR s * e (axis_of j)) prev) by (eapply Forall_impl; [|exact G]; intros v [_ B]; exact B).
    apply Forall_forall. intros v Iv. assert (O : origin contract k (plane_pos lo hi k) prev v) by (rewrite Forall_forall in F; apply F, Iv). split.
    + intros d. split; [apply (origin_double contract bound k _ prev v (plane_double k) Sn O)|]. pose proof (proj1 (Sh d _) (Lg d)) as A. pose proof (proj2 (Sh d _) (Lm d)) as B. unfold at_least, at_most in A, B. rewrite Forall_forall in A, B. specialize (A v Iv). specialize (B v Iv). cbn in A, B. rewrite S_INR. lra.
    + intros j M. assert (Ps : forall d, 0 <= INR s * e d) by (intros d; apply Rmult_le_pos; [apply pos_INR|left; apply err_pos]). destruct (origin_marks contract bound (plane_pos lo hi) k prev (fun d => INR s * e d) v Ps Sn Mk Hk O j M) as [J Q].
      split; [exact J|]. pose proof (step_small t (axis_of j)) as St. unfold bound in Q. rewrite S_INR. lra.
  - unfold side_of. assert (O : forall v, In v cur -> if Nat.even k then plane_pos lo hi k - wide_tol <= at_ (axis_of k) (c_pos v) else at_ (axis_of k) (c_pos v) <= plane_pos lo hi k + wide_tol) by (intros v Iv; rewrite Forall_forall in F; eapply origin_side, F, Iv).
    destruct (Nat.even k); apply Forall_forall; exact O.
Qed.
(** One direction. *)
Definition dim_axis (i : nat) : axis := match i with 0%nat => AX | 1%nat => AY | _ => AZ end.
Lemma direction_step s i prev : (s + 2 <= 6)%nat -> (i < 3)%nat -> good s prev -> fine (fun cur => good (2 + s) cur /\ shift 2 prev cur /\
  (reaches_low lo t (dim_axis i) -> at_least (dim_axis i) (at_ (dim_axis i) lo - wide_tol - e (dim_axis i)) cur) /\
  (reaches_high hi t (dim_axis i) -> at_most (dim_axis i) (at_ (dim_axis i) hi + wide_tol) cur)) (clip_direction_d contract t lo hi i prev).
Proof.
  intros Hs Hi G. unfold clip_direction_d. assert (Ax : axis_of (2 * i) = dim_axis i /\ axis_of (2 * i + 1) = dim_axis i) by (destruct i as [|[|[|i]]]; cbn; split; reflexivity || lia). destruct Ax as [Ax Ax']. rewrite Ax.
  assert (Ev : Nat.even (2 * i) = true /\ Nat.even (2 * i + 1) = false) by (destruct i as [|[|[|i]]]; cbn; split; reflexivity || lia). destruct Ev as [Ev Ev'].
  assert (Pl : plane_pos lo hi (2 * i) = at_ (dim_axis i) lo) by (unfold plane_pos; rewrite Ev, Ax; reflexivity). assert (Pl' : plane_pos lo hi (2 * i + 1) = at_ (dim_axis i) hi) by (unfold plane_pos; rewrite Ev', Ax'; reflexivity).
  eapply (fine_then (fun cur => good (S s) cur /\ shift 1 prev cur /\ (reaches_low lo t (dim_axis i) -> at_least (dim_axis i) (at_ (dim_axis i) lo - wide_tol) cur))).
  - destruct (Rlt_dec _ _) as [L|L].
    + pose proof (plane_step s (2 * i) prev ltac:(lia) ltac:(lia) G) as P. rewrite Pl in P. unfold side_of in P. rewrite Ev, Ax, Pl in P. destruct (clip_polygon_d _ _ _ _); cbn [fine] in *; [|exact P|exact I]. destruct P as (A & B & C). split; [exact A|split; [exact B|intros _; exact C]].
    + cbn [fine]. split; [apply good_more, G|split; [apply shift_self; lra|]]. intros Rl. exfalso. apply L, tri_max_lt, Rl.
  - intros c (Gc & Sc & Lc). destruct (Rlt_dec _ _) as [L|L].
    + pose proof (plane_step (S s) (2 * i + 1) c ltac:(lia) ltac:(lia) Gc) as P. rewrite Pl' in P. unfold side_of in P. rewrite Ev', Ax', Pl' in P. destruct (clip_polygon_d _ _ _ _); cbn [fine] in *; [|exact P|exact I]. destruct P as (A & B & C).
      split; [exact A|split; [replace 2 with (1 + 1) by ring; eapply shift_trans; eassumption|split; [|intros _; exact C]]]. intros Rl. eapply weaken_ge; [|apply (proj1 (B (dim_axis i) (at_ (dim_axis i) lo - wide_tol))), Lc, Rl]. lra.
    + cbn [fine]. split; [apply good_more, Gc|split; [|split]].
      * replace 2 with (1 + 1) by ring. eapply shift_trans; [exact Sc|apply shift_self; lra].
      * intros Rl. eapply weaken_ge; [|apply Lc, Rl]. pose proof (err_pos t (dim_axis i)). lra.
      * intros Rh. exfalso. apply L, tri_min_lt, Rh.
Qed.
Definition first (t : tri pt) : list cvert := [CV (P1 t) no_planes; CV (P2 t) no_planes; CV (P3 t) no_planes].
Lemma good_first : double_triangle t -> good 0 (first t).
Proof.
  intros D. assert (K : forall c, In c (corners_of t) -> (forall d, is_double (at_ d c) /\ tri_min t d - INR 0 * e d <= at_ d c <= tri_max t d + INR 0 * e d)).
  { intros c I d. split; [apply D, I|]. cbn [INR]. pose proof (corner_range t d c I). lra. }
  unfold first, good. apply Forall_forall. intros v [<-|[<-|[<-|[]]]]; cbn [c_pos c_on]; (split; [apply K; cbn; auto|intros j M; discriminate M]).
Qed.
Definition final (vs : list cvert) : Prop := good 6 vs /\ forall d, (reaches_low lo t d -> at_least d (at_ d lo - wide_tol - 6 * e d) vs) /\ (reaches_high hi t d -> at_most d (at_ d hi + wide_tol + 6 * e d) vs).
Lemma triangle_fine n : double_triangle t -> fine (fun r => forall p, r = Some p -> p_normal p = n /\ final (p_vertices p)) (clip_triangle_d contract t n lo hi).
Proof.
  intros D. unfold clip_triangle_d. destruct (existsb _ _); [intros p E; discriminate E|]. fold (first t).
  eapply fine_then; [apply (direction_step 0 0 (first t)); [lia|lia|apply good_first, D]|]. intros c0 (G0 & S0 & L0 & U0).
  eapply fine_then; [apply (direction_step 2 1 c0); [lia|lia|exact G0]|]. intros c1 (G1 & S1 & L1 & U1).
  eapply fine_then; [apply (direction_step 4 2 c1); [lia|lia|exact G1]|]. intros c2 (G2 & S2 & L2 & U2). intros p E. injection E as <-. cbn [p_vertices p_normal]. split; [reflexivity|]. split; [exact G2|].
  pose proof (shift_trans _ _ _ _ _ S1 S2) as S12. intros d. pose proof (err_pos t d) as P. destruct d; split; intros Rc.
  - eapply weaken_ge; [|exact (proj1 (S12 AX _) (L0 Rc))]. cbn [dim_axis]. lra.
  - eapply weaken_le; [|exact (proj2 (S12 AX _) (U0 Rc))]. cbn [dim_axis]. lra.
  - eapply weaken_ge; [|exact (proj1 (S2 AY _) (L1 Rc))]. cbn [dim_axis]. lra.
  - eapply weaken_le; [|exact (proj2 (S2 AY _) (U1 Rc))]. cbn [dim_axis]. lra.
  - eapply weaken_ge; [|apply L2, Rc]. cbn [dim_axis]. lra.
  - eapply weaken_le; [|apply U2, Rc]. cbn [dim_axis]. lra.
Qed.
End Planes.

(** ** Theorems. *)
(** The exception "No valid intersection" is never thrown. *)
Lemma fine_true {A} (P : A -> Prop) x : fine P x -> x <> NoIntersection. Proof. destruct x; cbn; intros H; [discriminate|destruct H|discriminate]. Qed.
Lemma direction_safe contract t lo hi i prev : fine (fun _ => True) (clip_direction_d contract t lo hi i prev).
Proof.
  unfold clip_direction_d. assert (W : forall k pos c, fine (fun _ : list cvert => True) (clip_polygon_d contract k pos c)). { intros k pos c. pose proof (polygon_fine contract k pos c) as F. destruct (clip_polygon_d contract k pos c); cbn [fine] in *; exact I || exact F. }
  eapply (fine_then (fun _ => True)); [destruct (Rlt_dec _ _); [apply W|exact I]|]. intros c _. destruct (Rlt_dec _ _); [apply W|exact I].
Qed.
Lemma never contract t n lo hi : clip_triangle_d contract t n lo hi <> NoIntersection.
Proof.
  apply (fine_true (fun _ => True)). unfold clip_triangle_d. destruct (existsb _ _); [exact I|]. eapply fine_then; [apply direction_safe|]. intros c _. eapply fine_then; [apply direction_safe|]. intros c1 _. eapply fine_then; [apply direction_safe|]. intros c2 _. exact I.
Qed.
Theorem C77_no_exception : forall contract t n lo hi, clip_triangle_d contract t n lo hi <> NoIntersection.
Proof. exact never. Qed.
Print Assumptions C77_no_exception.

(** The vertices are doubles, within the extent of the triangle and within the box, up to the tolerance and a few units of error. *)
Lemma vertices contract t n lo hi p v : double_triangle t -> doubles lo -> doubles hi -> clip_triangle_d contract t n lo hi = Done (Some p) -> In v (positions p) -> forall d, is_double (at_ d v) /\
  (exists c c', In c (corners_of t) /\ In c' (corners_of t) /\ at_ d c - 6 * err t d <= at_ d v <= at_ d c' + 6 * err t d) /\
  (reaches_low lo t d -> at_ d lo - face_tol - 6 * err t d <= at_ d v) /\ (reaches_high hi t d -> at_ d v <= at_ d hi + face_tol + 6 * err t d).
Proof.
  intros D Hl Hh E I d. pose proof (triangle_fine contract t lo hi Hl Hh n D) as F. rewrite E in F. destruct (F p eq_refl) as (_ & G & B). unfold positions in I. apply in_map_iff in I as (w & <- & I). unfold good in G. rewrite Forall_forall in G. destruct (G w I) as [A _]. destruct (A d) as [Dd Rd].
  split; [exact Dd|]. rewrite <- face_tol_eq. split; [|split; intros Rc].
  - destruct (min_corner t d) as (c & Ic & Ec). destruct (max_corner t d) as (c' & Ic' & Ec'). exists c, c'. split; [exact Ic|split; [exact Ic'|]]. rewrite <- Ec, <- Ec'. cbn [INR] in Rd. lra.
  - pose proof (proj1 (B d) Rc) as H. unfold at_least in H. rewrite Forall_forall in H. apply H, I.
  - pose proof (proj2 (B d) Rc) as H. unfold at_most in H. rewrite Forall_forall in H. apply H, I.
Qed.
Theorem C77_within : forall contract t n lo hi p v, double_triangle t -> doubles lo -> doubles hi -> clip_triangle_d contract t n lo hi = Done (Some p) -> In v (positions p) -> forall d, is_double (at_ d v) /\
  (exists c c', In c (corners_of t) /\ In c' (corners_of t) /\ at_ d c - 6 * err t d <= at_ d v <= at_ d c' + 6 * err t d) /\
  (reaches_low lo t d -> at_ d lo - face_tol - 6 * err t d <= at_ d v) /\ (reaches_high hi t d -> at_ d v <= at_ d hi + face_tol + 6 * err t d).
Proof. exact vertices. Qed.
Print Assumptions C77_within.

(** Marked vertices are on their faces. *)
Lemma marked contract t n lo hi p v k : double_triangle t -> doubles lo -> doubles hi -> clip_triangle_d contract t n lo hi = Done (Some p) -> In v (p_vertices p) -> c_on v k = true ->
  exists f, face lo hi k = Some f /\ Rabs (at_ (fst f) (c_pos v) - snd f) <= face_tol + 6 * err t (fst f).
Proof.
  intros D Hl Hh E I M. pose proof (triangle_fine contract t lo hi Hl Hh n D) as F. rewrite E in F. destruct (F p eq_refl) as (_ & G & _). unfold good in G. rewrite Forall_forall in G. destruct (proj2 (G v I) k M) as [K Q]. exists (axis_of k, plane_pos lo hi k). split; [apply face_all, K|]. cbn [fst snd]. rewrite <- face_tol_eq. cbn [INR] in Q. lra.
Qed.
Theorem C77_marks : forall contract t n lo hi p v k, double_triangle t -> doubles lo -> doubles hi -> clip_triangle_d contract t n lo hi = Done (Some p) -> In v (p_vertices p) -> c_on v k = true ->
  exists f, face lo hi k = Some f /\ Rabs (at_ (fst f) (c_pos v) - snd f) <= face_tol + 6 * err t (fst f).
Proof. exact marked. Qed.
Print Assumptions C77_marks.

(** Nothing is returned only for triangles in one of the faces. *)
Lemma nothing contract t n lo hi : clip_triangle_d contract t n lo hi = Done None -> exists k f, face lo hi k = Some f /\ forall c, In c (corners_of t) -> Rabs (at_ (fst f) c - snd f) <= face_tol.
Proof.
  unfold clip_triangle_d. destruct (existsb _ _) eqn:Ex.
  - intros _. apply existsb_exists in Ex as (k & I & A). apply in_seq in I. exists k, (axis_of k, plane_pos lo hi k). split; [apply face_all; lia|]. cbn [fst snd]. rewrite <- face_tol_eq. unfold aligned_d in A. apply andb_true_iff in A as [A A3]. apply andb_true_iff in A as [A1 A2].
    intros c Ic. apply (on_near k _ plane_tol_d); [lra|]. destruct Ic as [<-|[<-|[<-|[]]]]; [destruct (classify_d _ _ _ (P1 t))|destruct (classify_d _ _ _ (P2 t))|destruct (classify_d _ _ _ (P3 t))]; congruence.
  - intros H. exfalso. destruct (clip_direction_d _ _ _ _ 0 _) as [c0| |]; cbn [then_] in H; try discriminate. destruct (clip_direction_d _ _ _ _ 1 _) as [c1| |]; cbn [then_] in H; try discriminate. destruct (clip_direction_d _ _ _ _ 2 _); cbn [then_] in H; discriminate.
Qed.
Theorem C77_null : forall contract t n lo hi, clip_triangle_d contract t n lo hi = Done None -> exists k f, face lo hi k = Some f /\ forall c, In c (corners_of t) -> Rabs (at_ (fst f) c - snd f) <= face_tol.
Proof. exact nothing. Qed.
Print Assumptions C77_null.

(** Triangles inside the box are returned as they are, without any rounding. *)
Definition well_inside (lo hi p : pt) : Prop := forall d, at_ d lo + face_tol < at_ d p < at_ d hi - face_tol.
Lemma inside_behind lo hi p k : well_inside lo hi p -> (k < 6)%nat -> classify_d k (plane_pos lo hi k) plane_tol_d p = Behind.
Proof.
  intros W K. specialize (W (axis_of k)). rewrite <- face_tol_eq in W. assert (P : 0 < wide_tol) by (pose proof zerotol_pos; unfold wide_tol, plane_tol; lra). pose proof tol_pos_d as T. destruct (classify_d k (plane_pos lo hi k) plane_tol_d p) eqn:C; [|reflexivity|]; exfalso.
  - apply front_d in C. unfold plane_dist_d, plane_pos in C. apply (Rlt_trans _ _ _ T) in C. destruct (Nat.even k); apply fl_pos in C; lra.
  - apply on_near in C; [|lra]. unfold plane_pos in C. apply Rabs_le_inv in C. destruct (Nat.even k); lra.
Qed.
Lemma loop_keep contract k pos l : forall a cur, classify_d k pos plane_tol_d (c_pos a) = Behind -> Forall (fun v => classify_d k pos plane_tol_d (c_pos v) = Behind) l -> (length cur + length l <= 9)%nat -> clip_loop_d contract k pos a l cur = Done (cur ++ l).
Proof.
  induction l as [|b l IH]; intros a cur A F L; cbn [clip_loop_d]; [rewrite app_nil_r; reflexivity|]. inversion F as [|? ? B F']; subst. unfold clip_edge_d. rewrite B, A. unfold poly_add_d, poly_size. cbn [length] in L. destruct (Nat.leb_spec 9 (length cur)); [lia|]. cbn [then_]. rewrite IH; [rewrite <- app_assoc; reflexivity|exact B|exact F'|]. rewrite app_length. cbn. lia.
Qed.
Lemma polygon_keep contract k pos l : (length l <= 9)%nat -> Forall (fun v => classify_d k pos plane_tol_d (c_pos v) = Behind) l -> clip_polygon_d contract k pos l = Done l.
Proof.
  intros L F. unfold clip_polygon_d. destruct l as [|v l0] eqn:E; [reflexivity|]. rewrite <- E in *. rewrite loop_keep; [reflexivity| |exact F|cbn; exact L]. rewrite Forall_forall in F. apply F, last_in. rewrite E. discriminate.
Qed.
Lemma direction_keep contract t lo hi i l : (i < 3)%nat -> (length l <= 9)%nat -> (forall k, (k = 2 * i \/ k = 2 * i + 1)%nat -> Forall (fun v => classify_d k (plane_pos lo hi k) plane_tol_d (c_pos v) = Behind) l) -> clip_direction_d contract t lo hi i l = Done l.
Proof.
  intros Hi L F. assert (Pl : plane_pos lo hi (2 * i) = at_ (axis_of (2 * i)) lo /\ plane_pos lo hi (2 * i + 1) = at_ (axis_of (2 * i)) hi) by (destruct i as [|[|[|i]]]; cbn; split; reflexivity || lia). destruct Pl as [A B].
  unfold clip_direction_d. pose proof (polygon_keep contract _ _ l L (F (2 * i)%nat ltac:(lia))) as K. pose proof (polygon_keep contract _ _ l L (F (2 * i + 1)%nat ltac:(lia))) as K'. rewrite A in K. rewrite B in K'.
  destruct (Rlt_dec _ _); [rewrite K|]; cbn [then_]; (destruct (Rlt_dec _ _); [exact K'|reflexivity]).
Qed.
Lemma contained contract t n lo hi : (forall c, In c (corners_of t) -> well_inside lo hi c) -> clip_triangle_d contract t n lo hi = Done (Some (Poly (first t) n)).
Proof.
  intros W. assert (B : forall k, (k < 6)%nat -> Forall (fun v => classify_d k (plane_pos lo hi k) plane_tol_d (c_pos v) = Behind) (first t)).
  { intros k K. apply Forall_forall. intros v [<-|[<-|[<-|[]]]]; cbn [c_pos]; apply inside_behind; try exact K; apply W; cbn; auto. }
  unfold clip_triangle_d. destruct (existsb _ _) eqn:Ex.
  - exfalso. apply existsb_exists in Ex as (k & I & A). apply in_seq in I. unfold aligned_d in A. rewrite (inside_behind lo hi (P1 t) k) in A; [discriminate|apply W; cbn; auto|lia].
  - fold (first t). assert (K : forall i, (i < 3)%nat -> clip_direction_d contract t lo hi i (first t) = Done (first t)). { intros i Hi. apply direction_keep; [exact Hi|cbn; lia|]. intros k Hk. apply B. lia. }
    rewrite K by lia. cbn [then_]. rewrite K by lia. cbn [then_]. rewrite K by lia. reflexivity.
Qed.
Theorem C77_contained : forall contract t n lo hi, (forall c, In c (corners_of t) -> well_inside lo hi c) -> exists p, clip_triangle_d contract t n lo hi = Done (Some p) /\
  positions p = corners_of t /\ p_normal p = n /\ forall v k, In v (p_vertices p) -> c_on v k = false.
Proof.
  intros contract t n lo hi W. exists (Poly (first t) n). split; [apply contained, W|]. split; [reflexivity|split; [reflexivity|]]. intros v k [<-|[<-|[<-|[]]]]; reflexivity.
Qed.
Print Assumptions C77_contained.

(** Clipping by one face: every vertex is an old one that is not in front of the face, or next to the exact intersection point of an edge with the
    face; the old ones behind the face are kept. *)
Definition edge_err (a b : pt) (d : axis) : R := Rmax (Rabs (at_ d a)) (Rabs (at_ d b)) / 562949953421312 + 16 * bpow radix2 (-1074).
(** The face k is at pos; x is on its inner side, up to (tol > 0) or by more than (tol < 0) the tolerance. *)
Definition inner (k : nat) (pos tol x : R) : Prop := if Nat.even k then pos - tol <= x else x <= pos + tol.
Lemma edges contract k pos prev cur v : clip_polygon_d contract k pos prev = Done cur -> In v cur ->
  (exists w, In w prev /\ c_pos v = c_pos w /\ inner k pos face_tol (at_ (axis_of k) (c_pos w))) \/
  (exists a b s, follows prev a b /\ 0 <= s <= 1 /\ at_ (axis_of k) (c_pos a) + s * (at_ (axis_of k) (c_pos b) - at_ (axis_of k) (c_pos a)) = pos /\
   forall d, Rabs (at_ d (c_pos v) - (at_ d (c_pos a) + s * (at_ d (c_pos b) - at_ d (c_pos a)))) <= edge_err (c_pos a) (c_pos b) d).
Proof.
  intros E I. pose proof (polygon_fine contract k pos prev) as F. rewrite E in F. cbn [fine] in F. rewrite Forall_forall in F. pose proof (F v I) as O. pose proof (origin_side contract k pos prev v O) as Sd. rewrite face_tol_eq in Sd.
  destruct O as [v Iv B|v Iv B|a b p Ia Ib Fo Op Ep].
  - left. exists v. split; [exact Iv|split; [reflexivity|exact Sd]].
  - left. exists v. split; [exact Iv|split; [reflexivity|exact Sd]].
  - right. destruct (crossing_exact contract k pos _ _ p Op Ep) as (Hs & Ex & Er). do 3 eexists. split; [exact Fo|split; [exact Hs|split; [exact Ex|]]]. intros d. cbn [set_on c_pos]. unfold edge_err. eapply Rle_trans; [apply (Er d (Rmax (Rabs (at_ d (c_pos a))) (Rabs (at_ d (c_pos b))))); [apply Rmax_l|apply Rmax_r]|]. unfold u. lra.
Qed.
Lemma inner_behind k pos p : inner k pos (-2 * face_tol) (at_ (axis_of k) p) -> classify_d k pos plane_tol_d p = Behind.
Proof.
  unfold inner. intros H. assert (P : 0 < face_tol) by (unfold face_tol; lra). pose proof tol_pos_d as T. destruct (classify_d k pos plane_tol_d p) eqn:C; [|reflexivity|]; exfalso.
  - apply front_d in C. unfold plane_dist_d in C. apply (Rlt_trans _ _ _ T) in C. destruct (Nat.even k); apply fl_pos in C; lra.
  - apply on_near in C; [|lra]. rewrite face_tol_eq in C. apply Rabs_le_inv in C. destruct (Nat.even k); lra.
Qed.
Theorem C77_edges : forall contract k pos prev cur, clip_polygon_d contract k pos prev = Done cur ->
  (forall v, In v cur ->
    (exists w, In w prev /\ c_pos v = c_pos w /\ inner k pos face_tol (at_ (axis_of k) (c_pos w))) \/
    (exists a b s, follows prev a b /\ 0 <= s <= 1 /\ at_ (axis_of k) (c_pos a) + s * (at_ (axis_of k) (c_pos b) - at_ (axis_of k) (c_pos a)) = pos /\
     forall d, Rabs (at_ d (c_pos v) - (at_ d (c_pos a) + s * (at_ d (c_pos b) - at_ d (c_pos a)))) <= edge_err (c_pos a) (c_pos b) d)) /\
  (forall w, In w prev -> inner k pos (-2 * face_tol) (at_ (axis_of k) (c_pos w)) -> In w cur).
Proof. intros contract k pos prev cur E. split; [intros v I; eapply edges; eassumption|]. intros w I H. eapply polygon_in; [exact E|exact I|apply inner_behind, H]. Qed.
Print Assumptions C77_edges.

(** One face makes at most half as many vertices more, so that there is room for them in polygons with up to six vertices. *)
Theorem C77_room : forall contract k pos prev, (length prev <= 6)%nat -> exists cur, clip_polygon_d contract k pos prev = Done cur /\ (2 * length cur <= 3 * length prev)%nat.
Proof. exact polygon_room. Qed.
Print Assumptions C77_room.

(** The corners of the triangle that are inside the box are vertices of the result. *)
Lemma direction_in contract t lo hi i prev cur w : (i < 3)%nat -> clip_direction_d contract t lo hi i prev = Done cur -> In w prev -> well_inside lo hi (c_pos w) -> In w cur.
Proof.
  intros Hi E I W. assert (Pl : plane_pos lo hi (2 * i) = at_ (axis_of (2 * i)) lo /\ plane_pos lo hi (2 * i + 1) = at_ (axis_of (2 * i)) hi) by (destruct i as [|[|[|i]]]; cbn; split; reflexivity || lia). destruct Pl as [A B].
  pose proof (inside_behind lo hi (c_pos w) (2 * i) W ltac:(lia)) as Ba. pose proof (inside_behind lo hi (c_pos w) (2 * i + 1) W ltac:(lia)) as Bb. rewrite A in Ba. rewrite B in Bb. unfold clip_direction_d in E.
  destruct (if Rlt_dec (at_ (axis_of (2 * i)) lo) _ then _ else _) as [c| |] eqn:E1; cbn [then_] in E; try discriminate. assert (Ic : In w c). { destruct (Rlt_dec _ _) in E1; [eapply polygon_in; eassumption|injection E1 as <-; exact I]. }
  destruct (Rlt_dec _ _) in E; [eapply polygon_in; eassumption|injection E as <-; exact Ic].
Qed.
Lemma corners_kept contract t n lo hi p c : clip_triangle_d contract t n lo hi = Done (Some p) -> In c (corners_of t) -> well_inside lo hi c -> In c (positions p).
Proof.
  unfold clip_triangle_d. destruct (existsb _ _); [discriminate|]. fold (first t). intros E I W. assert (I0 : In (CV c no_planes) (first t)) by (destruct I as [<-|[<-|[<-|[]]]]; cbn; auto).
  destruct (clip_direction_d _ _ _ _ 0 _) as [c0| |] eqn:E0; cbn [then_] in E; try discriminate. destruct (clip_direction_d _ _ _ _ 1 _) as [c1| |] eqn:E1; cbn [then_] in E; try discriminate. destruct (clip_direction_d _ _ _ _ 2 _) as [c2| |] eqn:E2; cbn [then_] in E; try discriminate. injection E as <-.
  unfold positions. cbn [p_vertices]. apply in_map_iff. exists (CV c no_planes). split; [reflexivity|]. eapply direction_in; [|exact E2| |exact W]; [lia|]. eapply direction_in; [|exact E1| |exact W]; [lia|]. eapply direction_in; [|exact E0|exact I0|exact W]. lia.
Qed.
Theorem C77_kept : forall contract t n lo hi p c, clip_triangle_d contract t n lo hi = Done (Some p) -> In c (corners_of t) -> well_inside lo hi c -> In c (positions p).
Proof. exact corners_kept. Qed.
Print Assumptions C77_kept.

(** The vertices can be beyond the corners of the triangle: the bound of the errors is needed. *)
Definition tilted : tri pt := Tri (Pt (-1048576) (-1) 0) (Pt (bpow radix2 (-40)) (3 * bpow radix2 (-54)) 0) (Pt 0 0 1).
Definition flat_lo : pt := Pt (-1048577) (-2) (-2).
Definition flat_hi : pt := Pt 0 2 2.
Lemma zd z : (Z.abs z <= 2 ^ 53)%Z -> fl (IZR z) = IZR z. Proof. intros H. apply fl_id, double_Z, H. Qed.
Lemma tol_tiny : plane_tol_d < 1 / 10 ^ 12.
Proof. pose proof tol_close. unfold plane_tol, zerotol in *. lra. Qed.
Lemma margin k pos p : (if Nat.even k then pos + 1 <= at_ (axis_of k) p else at_ (axis_of k) p + 1 <= pos) -> classify_d k pos plane_tol_d p = Behind.
Proof.
  intros H. assert (D : plane_dist_d k pos p <= -1). { unfold plane_dist_d. rewrite <- (zd (-1)) by lia. destruct (Nat.even k); apply fl_le; lra. }
  pose proof tol_pos_d. pose proof tol_tiny as T. unfold classify_d. destruct (Rlt_dec _ _); [lra|]. destruct (Rlt_dec _ _); [reflexivity|lra].
Qed.
Lemma tilted_t : fl (fl (0 - -1048576) / fl (bpow radix2 (-40) - -1048576)) = 1.
Proof.
  replace (0 - -1048576) with 1048576 by ring. rewrite (zd 1048576) by lia. assert (E : fl (bpow radix2 (-40) - -1048576) = 1048576). { rewrite (fl_eq _ 21 4503599627370496); [cbn; lra|cbn; lra|lia|]. cbn. apply Rabs_def1; lra. }
  rewrite E. replace (1048576 / 1048576) with 1 by field. apply (zd 1). lia.
Qed.
Lemma tilted_point contract : find_intersection_d contract (P1 tilted) (P2 tilted) 1 0 = Done (Pt 0 (bpow radix2 (-52)) 0).
Proof.
  unfold find_intersection_d. cbn [tilted P1 P2 axis_of Nat.div2 at_ px py pz]. rewrite tilted_t. destruct (Rle_dec 0 1); [|lra]. destruct (Rle_dec 1 1); [|lra].
  assert (X : between_d contract 1 (-1048576) (bpow radix2 (-40)) = 0).
  { unfold between_d. rewrite Rmult_1_l. assert (E : fl (bpow radix2 (-40) - -1048576) = 1048576). { rewrite (fl_eq _ 21 4503599627370496); [cbn; lra|cbn; lra|lia|]. cbn. apply Rabs_def1; lra. }
    rewrite E. rewrite (zd 1048576) by lia. replace (if contract then 1048576 else 1048576) with 1048576 by (destruct contract; reflexivity). replace (-1048576 + 1048576) with 0 by ring. apply fl_0. }
  assert (Y : between_d contract 1 (-1) (3 * bpow radix2 (-54)) = bpow radix2 (-52)).
  { unfold between_d. rewrite Rmult_1_l. assert (E : fl (3 * bpow radix2 (-54) - -1) = 1 + bpow radix2 (-52)). { rewrite (fl_eq _ 1 4503599627370497); [cbn; lra|cbn; lra|lia|]. cbn. apply Rabs_def1; lra. }
    assert (F : fl (1 + bpow radix2 (-52)) = 1 + bpow radix2 (-52)) by (rewrite <- E; apply fl_id, fl_double). rewrite E, F. replace (if contract then 1 + bpow radix2 (-52) else 1 + bpow radix2 (-52)) with (1 + bpow radix2 (-52)) by (destruct contract; reflexivity).
    replace (-1 + (1 + bpow radix2 (-52))) with (bpow radix2 (-52)) by ring. apply fl_id, bpow_double. lia. }
  assert (Z : between_d contract 1 0 0 = 0). { unfold between_d. rewrite Rmult_1_l, Rminus_0_r, fl_0. replace (if contract then 0 else fl 0) with 0 by (destruct contract; [reflexivity|rewrite fl_0; reflexivity]). rewrite Rplus_0_l. apply fl_0. }
  rewrite X, Y, Z. assert (C : classify_d 1 0 zerotol_d (Pt 0 (bpow radix2 (-52)) 0) = On).
  { unfold classify_d, plane_dist_d. cbn [Nat.even axis_of Nat.div2 at_ px]. rewrite Rminus_0_r, fl_0. pose proof zerotol_range. destruct (Rlt_dec _ _); [lra|]. destruct (Rlt_dec _ _); [lra|reflexivity]. }
  rewrite C. reflexivity.
Qed.
Definition tilted_result : list cvert := [set_on 1 (CV (P3 tilted) no_planes); CV (P1 tilted) no_planes; set_on 1 (CV (Pt 0 (bpow radix2 (-52)) 0) (shared_on 1 (CV (P1 tilted) no_planes) (CV (P2 tilted) no_planes)))].
Lemma tilted_clip contract : clip_polygon_d contract 1 0 (first tilted) = Done tilted_result.
Proof.
  assert (A : classify_d 1 0 plane_tol_d (P1 tilted) = Behind) by (apply margin; cbn; lra).
  assert (B : classify_d 1 0 plane_tol_d (P2 tilted) = Front). { unfold classify_d, plane_dist_d. cbn [Nat.even axis_of Nat.div2 at_ px tilted P2]. rewrite Rminus_0_r, fl_id by (apply bpow_double; lia). pose proof tol_close as T. unfold plane_tol, zerotol in T. destruct (Rlt_dec _ _) as [L|L]; [reflexivity|]. exfalso. apply L. cbn. lra. }
  assert (C : classify_d 1 0 plane_tol_d (P3 tilted) = On). { unfold classify_d, plane_dist_d. cbn [Nat.even axis_of Nat.div2 at_ px tilted P3]. rewrite Rminus_0_r, fl_0. pose proof tol_pos_d. destruct (Rlt_dec _ _); [lra|]. destruct (Rlt_dec _ _); [lra|reflexivity]. }
  unfold first, clip_polygon_d. cbn [last clip_loop_d]. unfold clip_edge_d at 1. cbn [c_pos]. rewrite A, C. unfold poly_add_d at 1. cbn [poly_size length Nat.leb then_ app]. unfold poly_add_d at 1. cbn [poly_size length Nat.leb then_ app].
  unfold clip_edge_d at 1. cbn [c_pos]. rewrite A, B. unfold add_crossing_d. cbn [c_pos]. rewrite tilted_point. unfold poly_add_d at 1. cbn [poly_size length Nat.leb then_ app]. unfold clip_edge_d at 1. cbn [c_pos]. rewrite B, C. reflexivity.
Qed.
Lemma small52 : 0 < bpow radix2 (-52) < 1. Proof. cbn. lra. Qed.
Lemma small54 : 0 < 3 * bpow radix2 (-54) < 1 /\ 3 * bpow radix2 (-54) < bpow radix2 (-52). Proof. cbn. lra. Qed.
Lemma small40 : 0 < bpow radix2 (-40) < 1. Proof. cbn. lra. Qed.
Lemma tilted_run contract n : clip_triangle_d contract tilted n flat_lo flat_hi = Done (Some (Poly tilted_result n)).
Proof.
  pose proof small52. pose proof small54. pose proof small40. unfold clip_triangle_d. destruct (existsb _ _) eqn:Ex.
  - exfalso. apply existsb_exists in Ex as (k & I & A). apply in_seq in I. unfold aligned_d in A. rewrite (margin k _ (P1 tilted)) in A; [discriminate|]. destruct k as [|[|[|[|[|[|k]]]]]]; try lia; unfold plane_pos, flat_lo, flat_hi, tilted; cbn [Nat.even axis_of Nat.div2 at_ px py pz P1]; lra.
  - fold (first tilted). assert (D0 : clip_direction_d contract tilted flat_lo flat_hi 0 (first tilted) = Done tilted_result).
    { unfold clip_direction_d. change (axis_of (2 * 0)) with AX. change (2 * 0)%nat with 0%nat. change (0 + 1)%nat with 1%nat. assert (L : at_ AX flat_lo < tri_max tilted AX) by (apply tri_max_lt; exists (P1 tilted); cbn; split; [auto|lra]). assert (U : tri_min tilted AX < at_ AX flat_hi) by (apply tri_min_lt; exists (P1 tilted); cbn; split; [auto|lra]).
      destruct (Rlt_dec _ _) as [_|N]; [|contradiction]. rewrite polygon_keep; [|cbn; lia|].
      - cbn [then_]. destruct (Rlt_dec _ _) as [_|N]; [|contradiction]. apply tilted_clip.
      - apply Forall_forall. intros v [<-|[<-|[<-|[]]]]; apply margin; unfold flat_lo, tilted; cbn [Nat.even axis_of Nat.div2 at_ px c_pos P1 P2 P3]; lra. }
    rewrite D0. cbn [then_]. assert (K : forall i, (i = 1 \/ i = 2)%nat -> clip_direction_d contract tilted flat_lo flat_hi i tilted_result = Done tilted_result).
    { intros i Hi. apply direction_keep; [lia|cbn; lia|]. intros k Hk. assert (Kk : (k = 2 \/ k = 3 \/ k = 4 \/ k = 5)%nat) by lia. clear Hk Hi. apply Forall_forall. intros v [<-|[<-|[<-|[]]]]; apply margin; destruct Kk as [-> |[-> |[-> | ->]]]; unfold plane_pos, flat_lo, flat_hi, tilted, set_on; cbn [Nat.even axis_of Nat.div2 at_ px py pz c_pos P1 P2 P3]; lra. }
    rewrite K by lia. cbn [then_]. rewrite K by lia. reflexivity.
Qed.
Lemma tilted_doubles : double_triangle tilted /\ doubles flat_lo /\ doubles flat_hi.
Proof.
  split; [|split].
  - intros c [<-|[<-|[<-|[]]]] []; cbn [tilted P1 P2 P3 at_ px py pz]; try (apply double_Z; lia); [apply bpow_double; lia|]. apply generic_format_FLT. exists (Float radix2 3 (-54)); cbn [Fnum Fexp]; [reflexivity|cbn; lia|lia].
  - intros []; cbn; apply double_Z; lia.
  - intros []; cbn; apply double_Z; lia.
Qed.
Lemma beyond contract n : exists p v, clip_triangle_d contract tilted n flat_lo flat_hi = Done (Some p) /\ In v (positions p) /\ forall c, In c (corners_of tilted) -> py c < py v.
Proof.
  eexists. exists (Pt 0 (bpow radix2 (-52)) 0). split; [apply tilted_run|]. split; [cbn; auto|]. pose proof small52. pose proof small54. intros c [<-|[<-|[<-|[]]]]; cbn [tilted P1 P2 P3 py]; lra.
Qed.
Theorem C77_hull_refuted : double_triangle tilted /\ doubles flat_lo /\ doubles flat_hi /\ forall contract n, exists p v, clip_triangle_d contract tilted n flat_lo flat_hi = Done (Some p) /\ In v (positions p) /\ forall c, In c (corners_of tilted) -> py c < py v.
Proof. destruct tilted_doubles as (A & B & C). split; [exact A|split; [exact B|split; [exact C|exact beyond]]]. Qed.
Print Assumptions C77_hull_refuted.

(** The witness also meets the hypotheses of the theorems above: it is reached by the box in every direction, and has a marked vertex. *)
Example C77_example : double_triangle tilted /\ (forall d, reaches_low flat_lo tilted d /\ reaches_high flat_hi tilted d) /\
  forall contract n, exists p v, clip_triangle_d contract tilted n flat_lo flat_hi = Done (Some p) /\ In v (p_vertices p) /\ c_on v 1 = true.
Proof.
  split; [apply tilted_doubles|split].
  - intros d. split; exists (P1 tilted); (split; [cbn; auto|]); unfold tilted, flat_lo, flat_hi; destruct d; cbn [at_ px py pz P1]; lra.
  - intros contract n. eexists. exists (set_on 1 (CV (P3 tilted) no_planes)). split; [apply tilted_run|]. split; [cbn; auto|reflexivity].
Qed.
(** A triangle inside the box, and one in a face. *)
Example C77_example_contained : forall c, In c (corners_of (Tri (Pt 0 0 0) (Pt 1 0 0) (Pt 0 1 0))) -> well_inside (Pt (-1) (-1) (-1)) (Pt 2 2 2) c.
Proof. assert (F : 0 < face_tol < 1) by (unfold face_tol; lra). intros c [<-|[<-|[<-|[]]]] []; cbn [P1 P2 P3 at_ px py pz]; lra. Qed.
Example C77_example_null : forall contract n, clip_triangle_d contract (Tri (Pt 0 0 0) (Pt 1 0 0) (Pt 0 1 0)) n (Pt 0 0 0) (Pt 2 2 2) = Done None.
Proof.
  intros contract n. unfold clip_triangle_d. assert (Ex : existsb (aligned_d (Tri (Pt 0 0 0) (Pt 1 0 0) (Pt 0 1 0)) (Pt 0 0 0) (Pt 2 2 2)) (seq 0 6) = true).
  { apply existsb_exists. exists 4%nat. split; [apply in_seq; lia|]. unfold aligned_d. cbn [P1 P2 P3]. assert (Z : forall x y, classify_d 4 (plane_pos (Pt 0 0 0) (Pt 2 2 2) 4) plane_tol_d (Pt x y 0) = On).
    { intros x y. unfold classify_d, plane_dist_d, plane_pos. cbn [Nat.even axis_of Nat.div2 at_ pz]. rewrite Rminus_0_r, fl_0. pose proof tol_pos_d. destruct (Rlt_dec _ _); [lra|]. destruct (Rlt_dec _ _); [lra|reflexivity]. }
    rewrite !Z. reflexivity. }
  rewrite Ex. reflexivity.
Qed.

(** A corner inside the box of a triangle that is cut; the face of C77_edges. *)
Example C77_example_kept : forall contract n, exists p, clip_triangle_d contract tilted n flat_lo flat_hi = Done (Some p) /\ In (P1 tilted) (corners_of tilted) /\ well_inside flat_lo flat_hi (P1 tilted) /\
  clip_polygon_d contract 1 0 (first tilted) = Done (p_vertices p) /\ inner 1 0 (-2 * face_tol) (at_ (axis_of 1) (P1 tilted)).
Proof.
  intros contract n. eexists. split; [apply tilted_run|]. assert (F : 0 < face_tol < 1 / 4) by (unfold face_tol; lra). split; [cbn; auto|]. split; [intros []; unfold tilted, flat_lo, flat_hi; cbn [at_ px py pz P1]; lra|]. split; [apply tilted_clip|]. unfold inner, tilted. cbn [Nat.even axis_of Nat.div2 at_ px P1]. lra.
Qed.
Example C77_example_room : (length (first tilted) <= 6)%nat. Proof. cbn. lia. Qed.
