(** The parts of a triangle in the cells of a grid, as they are returned by clipping. *)
From Coq Require Import Reals List Arith Bool Lia Lra Permutation.
From Verif Require Import Geo MappingModel TrimmedQuadModel MeshModel MeshProofs MeshGeoModel MeshGeoProofs MeshBoxProofs ClipModel ClipTheory ClipPlane ClipArea ClipProofs ClipInv ClipMeshProofs ClipCover ClipResult ClipProps ClipAdd ClipGrid.
Import ListNotations.
Local Open Scope R_scope.

Definition corner_of (cs : axis -> nat -> R) (i j k : nat) : pt := Pt (cs AX i) (cs AY j) (cs AZ k).

(** *** One triangle *)
(** The part of the area that clipping keeps. *)
Definition kept (t : tri pt) (lo hi : pt) : R :=
  if existsb (aligned t lo hi) (seq 0 6) then 0 else area_of (map w_q (clip_all t (planes t lo hi) start)).
Lemma kept_area t n lo hi : exists r, clip_triangle t n lo hi = Some r /\ match r with None => kept t lo hi = 0 | Some p => poly_area (positions p) = kept t lo hi * tri_area t end.
Proof.
  rewrite clip_triangle_ok. unfold kept. destruct (existsb (aligned t lo hi) (seq 0 6)); eexists; (split; [reflexivity|]); [reflexivity|].
  unfold positions, poly_area. cbn [p_vertices]. rewrite poly_vector_ws. destruct (ws_oriented t lo hi) as [O _]. rewrite norm_scale by (apply area_nonneg2, O). unfold tri_area. fold (area2 t). ring.
Qed.
Lemma clip_one_area lo hi q m l : cm_ok m -> visit_n (cm_mesh m) = Some l -> exists m' new,
  clip_one lo hi q m = Some m' /\ cm_ok m' /\ visit_n (cm_mesh m') = Some (l ++ new) /\ sum (fun s => tri_area (fst s)) new = kept (fst q) lo hi * tri_area (fst q).
Proof.
  intros O V. destruct q as [t n]. unfold clip_one. cbn [fst snd]. destruct (kept_area t n lo hi) as (r & E & A). rewrite E. destruct r as [p|].
  - destruct (add_clipped t n lo hi p m l E O V) as (m' & new & E' & O' & V' & _ & Ar & _). exists m', (map (fun s => (s, n)) new). split; [exact E'|]. split; [exact O'|]. split; [exact V'|].
    rewrite sum_map. cbn [fst]. rewrite <- A, <- Ar. reflexivity.
  - exists m, []. split; [reflexivity|]. split; [exact O|]. split; [rewrite app_nil_r; exact V|]. rewrite A. cbn [sum]. ring.
Qed.
Lemma clip_fold_area lo hi ql : forall m l, cm_ok m -> visit_n (cm_mesh m) = Some l -> exists m' new,
  fold_left (fun m q => and_then m (clip_one lo hi q)) ql (Some m) = Some m' /\ cm_ok m' /\ visit_n (cm_mesh m') = Some (l ++ new) /\
  sum (fun s => tri_area (fst s)) new = sum (fun q => kept (fst q) lo hi * tri_area (fst q)) ql.
Proof.
  induction ql as [|q ql IH]; intros m l O V; cbn [fold_left].
  - exists m, []. split; [reflexivity|]. split; [exact O|]. split; [rewrite app_nil_r; exact V | reflexivity].
  - destruct (clip_one_area lo hi q m l O V) as (m1 & new & E & O1 & V1 & A1). cbn [and_then]. rewrite E. destruct (IH m1 _ O1 V1) as (m' & news & E' & O' & V' & A').
    exists m', (new ++ news). split; [exact E'|]. split; [exact O'|]. split; [rewrite V', app_assoc; reflexivity|]. rewrite sum_app, A1, A'. reflexivity.
Qed.
(** The triangles of the clipped mesh have the areas that are kept of the listed triangles. *)
Lemma clip_mesh_area src ids lo hi l m r : visit_list (triangle_n src) ids = Some l -> clip_mesh src ids lo hi = Some m -> visit_n (cm_mesh m) = Some r ->
  sum (fun s => tri_area (fst s)) r = sum (fun q => kept (fst q) lo hi * tri_area (fst q)) l.
Proof.
  intros El E V. unfold clip_mesh in E. rewrite El in E. cbn [and_then] in E. assert (Oe : cm_ok empty_cmesh) by (split; [apply empty_wf | constructor]).
  destruct (clip_fold_area lo hi l empty_cmesh [] Oe eq_refl) as (m' & new & E' & O' & V' & A). rewrite E' in E. cbn [and_then] in E.
  assert (m = m') as ->. { destruct (0 <? num_triangles (cm_mesh m'))%nat; [|congruence]. destruct (check (cm_mesh m')); congruence. }
  rewrite V' in V. injection V as <-. exact A.
Qed.

(** *** One cell *)
Section Cell.
Variables (cs : axis -> nat -> R) (n : axis -> nat) (t : tri pt).
Hypothesis cs_ok : positions_ok cs.
Hypothesis gp : general_position cs n t.
Hypothesis within : within_grid cs n t.
Variables i j k : nat.
Hypotheses (Li : (i < n AX)%nat) (Lj : (j < n AY)%nat) (Lk : (k < n AZ)%nat).
Let lo := corner_of cs i j k.
Let hi := corner_of cs (S i) (S j) (S k).
Lemma part3_clip : map w_q (clip_all t (all_planes lo hi) start) = part3 cs t i j k.
Proof.
  unfold clip_all, all_planes. cbn [seq map fold_left fst snd]. rewrite !clipw_q. reflexivity.
Qed.
Lemma part3_length : (length (part3 cs t i j k) <= 9)%nat.
Proof.
  rewrite <- part3_clip, map_length. destruct (clip_all_ok t (all_planes lo hi) start start_convex) as (_ & _ & L); [cbn; lia|].
  change (length start + length (all_planes lo hi))%nat with 9%nat in L. exact L.
Qed.
Lemma not_plane d i0 : (i0 <= n d)%nat -> exists p, xd t d p <> cs d i0.
Proof.
  intros L. exists (0, 0). destruct gp as (G & _). assert (F := G (P1 t) d (or_introl eq_refl) i0 L). intros E. unfold xd in E. rewrite at_pos2 in E. cbn [fst snd] in E.
  assert (E' : at_ d (P1 t) - cs d i0 = 0) by lra. rewrite E', Rabs_R0 in F. assert (P := tol_pos). lra.
Qed.
Lemma two_sides d i0 l : l <> [] -> (length l <= 9)%nat -> (i0 < n d)%nat -> (forall u, In u l -> V cs n t dirs3 u) -> (forall u, In u l -> cs d i0 <= xd t d u <= cs d (S i0)) ->
  area_of l = 0 \/ cs d i0 + zerotol < xd t d (centroid2 l) < cs d (S i0) - zerotol.
Proof.
  intros N L I Hv Hb.
  assert (A : area_of l = 0 \/ zerotol < xd t d (centroid2 l) - cs d i0).
  { apply (side_room t dirs3 l (fun q => xd t d q - cs d i0) d (cs d i0) N L); [right; reflexivity | | | ].
    - intros u Iu. destruct (V_split cs n t cs_ok gp dirs3 u d i0 (Hv u Iu) ltac:(lia)) as [Q|Q]; [left; lra | right; exact Q].
    - intros u Iu. specialize (Hb u Iu). lra.
    - destruct (not_plane d i0 ltac:(lia)) as (p & Np). exists p. lra. }
  assert (B : area_of l = 0 \/ zerotol < cs d (S i0) - xd t d (centroid2 l)).
  { apply (side_room t dirs3 l (fun q => cs d (S i0) - xd t d q) d (cs d (S i0)) N L); [left; reflexivity | | | ].
    - intros u Iu. destruct (V_split cs n t cs_ok gp dirs3 u d (S i0) (Hv u Iu) ltac:(lia)) as [Q|Q]; [left; lra | right; rewrite Rabs_minus_sym; exact Q].
    - intros u Iu. specialize (Hb u Iu). lra.
    - destruct (not_plane d (S i0) ltac:(lia)) as (p & Np). exists p. lra. }
  destruct A as [A|A]; [left; exact A|]. destruct B as [B|B]; [left; exact B|]. right. lra.
Qed.
(** A part with area reaches into the cell by more than the tolerance of the search. *)
Lemma part3_room : area_of (part3 cs t i j k) <> 0 -> exists x, in_triangle t x /\ forall d, at_ d lo + zerotol < at_ d x < at_ d hi - zerotol.
Proof.
  intros Na. set (l := part3 cs t i j k) in *. assert (N : l <> []) by (intros E; apply Na; rewrite E; reflexivity).
  destruct (part3_inv cs n t cs_ok gp i j k Li Lj Lk) as [(Cv & Hv & _) Hb]. fold l in Cv, Hv, Hb.
  assert (Bx : forall u, In u l -> cs AX i <= xd t AX u <= cs AX (S i) /\ cs AY j <= xd t AY u <= cs AY (S j) /\ cs AZ k <= xd t AZ u <= cs AZ (S k)) by (intros u I; apply (part3_box cs n t cs_ok gp i j k u Li Lj Lk I)).
  assert (L := part3_length). fold l in L.
  destruct (two_sides AX i l N L Li Hv (fun u I => proj1 (Bx u I))) as [Z|X]; [contradiction|].
  destruct (two_sides AY j l N L Lj Hv (fun u I => proj1 (proj2 (Bx u I)))) as [Z|Y]; [contradiction|].
  destruct (two_sides AZ k l N L Lk Hv (fun u I => proj2 (proj2 (Bx u I)))) as [Z|Z]; [contradiction|].
  exists (pos2 t (centroid2 l)). split.
  - apply start_hull. change (hull (S0) (centroid2 l)). apply (hull_mono l); [|apply centroid_hull, N]. intros v Iv. apply Hv, Iv.
  - intros []; assumption.
Qed.
Lemma in_triangle_above t' x d c : in_triangle t' x -> c < at_ d x -> exists p, In p (corners_of t') /\ c < at_ d p.
Proof.
  intros (u & v & w & U & V & W & S & ->) H.
  assert (E : at_ d (vadd (vadd (vscale u (P1 t')) (vscale v (P2 t'))) (vscale w (P3 t'))) = u * at_ d (P1 t') + v * at_ d (P2 t') + w * at_ d (P3 t')) by (destruct d; reflexivity). rewrite E in H.
  destruct (Rlt_dec c (at_ d (P1 t'))); [exists (P1 t'); split; [cbn; tauto | assumption]|].
  destruct (Rlt_dec c (at_ d (P2 t'))); [exists (P2 t'); split; [cbn; tauto | assumption]|].
  destruct (Rlt_dec c (at_ d (P3 t'))); [exists (P3 t'); split; [cbn; tauto | assumption]|]. exfalso. nra.
Qed.
Lemma in_triangle_below t' x d c : in_triangle t' x -> at_ d x < c -> exists p, In p (corners_of t') /\ at_ d p < c.
Proof.
  intros (u & v & w & U & V & W & S & ->) H.
  assert (E : at_ d (vadd (vadd (vscale u (P1 t')) (vscale v (P2 t'))) (vscale w (P3 t'))) = u * at_ d (P1 t') + v * at_ d (P2 t') + w * at_ d (P3 t')) by (destruct d; reflexivity). rewrite E in H.
  destruct (Rlt_dec (at_ d (P1 t')) c); [exists (P1 t'); split; [cbn; tauto | assumption]|].
  destruct (Rlt_dec (at_ d (P2 t')) c); [exists (P2 t'); split; [cbn; tauto | assumption]|].
  destruct (Rlt_dec (at_ d (P3 t')) c); [exists (P3 t'); split; [cbn; tauto | assumption]|]. exfalso. nra.
Qed.
Lemma not_aligned : existsb (aligned t lo hi) (seq 0 6) = false.
Proof.
  destruct (existsb (aligned t lo hi) (seq 0 6)) eqn:Al; [exfalso|reflexivity]. apply existsb_exists in Al as (q & I & A). apply in_seq in I. assert (K : (q < 6)%nat) by lia.
  assert (N := proj1 (aligned_near t lo hi q _ (face_all lo hi q K)) A). specialize (N (P1 t) (or_introl eq_refl)). destruct gp as (G & _). unfold near in N. cbn [fst snd] in N.
  assert (F : forall d i0, (i0 <= n d)%nat -> plane_tol < Rabs (at_ d (P1 t) - cs d i0)) by (intros d i0 L; apply (G (P1 t) d (or_introl eq_refl) i0 L)).
  destruct q as [|[|[|[|[|[|q]]]]]]; try lia; cbn [axis_of Nat.div2 plane_pos Nat.even at_ lo hi corner_of px py pz] in N.
  - specialize (F AX i ltac:(lia)). cbn [at_] in F. unfold lo, corner_of in N; cbn [px] in N; lra.
  - specialize (F AX (S i) ltac:(lia)). cbn [at_] in F. unfold hi, corner_of in N; cbn [px] in N; lra.
  - specialize (F AY j ltac:(lia)). cbn [at_] in F. unfold lo, corner_of in N; cbn [py] in N; lra.
  - specialize (F AY (S j) ltac:(lia)). cbn [at_] in F. unfold hi, corner_of in N; cbn [py] in N; lra.
  - specialize (F AZ k ltac:(lia)). cbn [at_] in F. unfold lo, corner_of in N; cbn [pz] in N; lra.
  - specialize (F AZ (S k) ltac:(lia)). cbn [at_] in F. unfold hi, corner_of in N; cbn [pz] in N; lra.
Qed.
(** If the triangle reaches into the cell then exactly its part is kept. *)
Lemma kept_part x : in_triangle t x -> (forall d, at_ d lo < at_ d x < at_ d hi) -> kept t lo hi = area_of (part3 cs t i j k).
Proof.
  intros T B. unfold kept. rewrite not_aligned, <- part3_clip. f_equal. f_equal. f_equal. unfold planes.
  assert (U : forall kp, In kp (all_planes lo hi) -> used t kp = true).
  { intros kp I. unfold all_planes in I. apply in_map_iff in I as (q & <- & I). apply in_seq in I. assert (K : (q < 6)%nat) by lia. unfold used.
    assert (Lw : forall d, at_ d lo < tri_max t d) by (intros d; apply tri_max_lt, (in_triangle_above t x d); [exact T | apply B]).
    assert (Up : forall d, tri_min t d < at_ d hi) by (intros d; apply tri_min_lt, (in_triangle_below t x d); [exact T | apply B]).
    destruct q as [|[|[|[|[|[|q]]]]]]; try lia; cbn [axis_of Nat.div2 plane_pos Nat.even]; destruct (Rlt_dec _ _) as [F|F]; try reflexivity; exfalso; apply F; first [apply Lw | apply Up]. }
  clear -U. induction (all_planes lo hi) as [|a l IH]; [reflexivity|]. cbn [filter]. rewrite U by (left; reflexivity). f_equal. apply IH. intros kp I. apply U. right; exact I.
Qed.
End Cell.
