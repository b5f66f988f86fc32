(** The model of clipping follows the clipping of polygons in the plane of the triangle. *)
From Coq Require Import Reals List Arith Bool Lia Lra.
From Verif Require Import Geo MappingModel TrimmedQuadModel MeshModel MeshGeoModel MeshGeoProofs ClipModel ClipTheory ClipPlane ClipArea.
Import ListNotations.
Local Open Scope R_scope.

(** Vertices in the coordinates of the triangle, with the planes they are on. *)
Record wv := WV { w_q : p2; w_on : nat -> bool }.
Definition pos2 (t : tri pt) (q : p2) : pt :=
  vadd (P1 t) (vadd (vscale (fst q) (vsub (P2 t) (P1 t))) (vscale (snd q) (vsub (P3 t) (P1 t)))).
Definition emb (t : tri pt) (w : wv) : cvert := CV (pos2 t (w_q w)) (w_on w).
Definition hk (t : tri pt) (k : nat) (pos : R) (q : p2) : R := plane_dist k pos (pos2 t q).
Definition sdw (t : tri pt) (k : nat) (pos : R) (w : wv) : side := sd2 (hk t k pos) plane_tol (w_q w).
Definition interw (t : tri pt) (k : nat) (pos : R) (a b : wv) : wv :=
  WV (inter2 (hk t k pos) (w_q a) (w_q b)) (fun j => (j =? k)%nat || ((j <? k)%nat && w_on a j && w_on b j)).
Definition markw (k : nat) (w : wv) : wv := WV (w_q w) (fun j => (j =? k)%nat || w_on w j).
Definition clipw (t : tri pt) (k : nat) (pos : R) (l : list wv) : list wv := gclip (sdw t k pos) (interw t k pos) (markw k) l.

Lemma tol_pos : 0 < plane_tol.
Proof. unfold plane_tol. assert (P := zerotol_pos). lra. Qed.
Lemma at_pos2 t a q : at_ a (pos2 t q) = at_ a (P1 t) + fst q * (at_ a (P2 t) - at_ a (P1 t)) + snd q * (at_ a (P3 t) - at_ a (P1 t)).
Proof. unfold pos2, vadd, vscale, vsub. destruct a; cbn [at_ px py pz]; ring. Qed.
Lemma hk_affine t k pos : affine (hk t k pos).
Proof.
  unfold hk, plane_dist. destruct (Nat.even k).
  - eexists (pos - at_ (axis_of k) (P1 t)), (- (at_ (axis_of k) (P2 t) - at_ (axis_of k) (P1 t))), (- (at_ (axis_of k) (P3 t) - at_ (axis_of k) (P1 t))).
    intros q. rewrite at_pos2. ring.
  - eexists (at_ (axis_of k) (P1 t) - pos), (at_ (axis_of k) (P2 t) - at_ (axis_of k) (P1 t)), (at_ (axis_of k) (P3 t) - at_ (axis_of k) (P1 t)).
    intros q. rewrite at_pos2. ring.
Qed.
Lemma classify_sd t k pos q : classify k pos plane_tol (pos2 t q) = sd2 (hk t k pos) plane_tol q.
Proof. reflexivity. Qed.
Lemma pos2_mix t s p q : pos2 t (mix s p q) = Pt (px (pos2 t p) + s * (px (pos2 t q) - px (pos2 t p)))
  (py (pos2 t p) + s * (py (pos2 t q) - py (pos2 t p))) (pz (pos2 t p) + s * (pz (pos2 t q) - pz (pos2 t p))).
Proof. unfold pos2, mix, vadd, vscale, vsub. cbn [px py pz fst snd]. f_equal; ring. Qed.
Lemma find_ok t k pos a b : (sd2 (hk t k pos) plane_tol a = Behind /\ sd2 (hk t k pos) plane_tol b = Front) \/ (sd2 (hk t k pos) plane_tol a = Front /\ sd2 (hk t k pos) plane_tol b = Behind) ->
  find_intersection (pos2 t a) (pos2 t b) k pos = Some (pos2 t (inter2 (hk t k pos) a b)).
Proof.
  intros S. assert (Tp := Rlt_le _ _ tol_pos). destruct (cross_param _ _ (hk_affine t k pos) Tp a b S) as (T & Z & N).
  unfold find_intersection. set (i := axis_of k).
  assert (Et : (pos - at_ i (pos2 t a)) / (at_ i (pos2 t b) - at_ i (pos2 t a)) = hk t k pos a / (hk t k pos a - hk t k pos b)).
  { revert N. unfold hk, plane_dist. fold i. destruct (Nat.even k); intros N; field; lra. }
  rewrite Et. destruct (Rle_dec 0 _) as [_|F]; [|lra]. destruct (Rle_dec _ 1) as [_|F]; [|lra]. f_equal.
  rewrite <- pos2_mix. fold (inter2 (hk t k pos) a b). unfold classify. change (plane_dist k pos (pos2 t (inter2 (hk t k pos) a b))) with (hk t k pos (inter2 (hk t k pos) a b)).
  rewrite Z. assert (Zt := zerotol_pos). destruct (Rlt_dec zerotol 0) as [F|_]; [lra|]. destruct (Rlt_dec 0 (- zerotol)) as [F|_]; [lra|]. reflexivity.
Qed.
Lemma emb_inter t k pos a b : emb t (interw t k pos a b) = set_on k (CV (pos2 t (inter2 (hk t k pos) (w_q a) (w_q b))) (shared_on k (emb t a) (emb t b))).
Proof. reflexivity. Qed.
Lemma poly_add_ok v cur : (length cur < 9)%nat -> poly_add v cur = Some (cur ++ [v]).
Proof. intros L. unfold poly_add, poly_size. destruct (Nat.leb_spec 9 (length cur)); [lia | reflexivity]. Qed.
Lemma edge_ok t k pos a b cur : (length cur + length (out (sdw t k pos) (interw t k pos) (markw k) a b) <= 9)%nat ->
  clip_edge k pos (emb t a) (emb t b) cur = Some (cur ++ map (emb t) (out (sdw t k pos) (interw t k pos) (markw k) a b)).
Proof.
  intros L. unfold clip_edge, out, sdw in *. cbn [emb c_pos]. rewrite !classify_sd.
  destruct (sd2 (hk t k pos) plane_tol (w_q b)) eqn:Sb, (sd2 (hk t k pos) plane_tol (w_q a)) eqn:Sa; cbn [length map] in *; rewrite ?app_nil_r; try reflexivity.
  - unfold add_crossing. cbn [emb c_pos]. rewrite find_ok by (left; split; assumption). rewrite poly_add_ok by lia. reflexivity.
  - unfold add_crossing. cbn [emb c_pos]. rewrite find_ok by (right; split; assumption). rewrite poly_add_ok by lia. cbn [and_then].
    rewrite poly_add_ok by (rewrite app_length; cbn [length]; lia). rewrite <- app_assoc. reflexivity.
  - rewrite poly_add_ok by lia. reflexivity.
  - rewrite poly_add_ok by lia. cbn [and_then]. rewrite poly_add_ok by (rewrite app_length; cbn [length]; lia). rewrite <- app_assoc. reflexivity.
  - rewrite poly_add_ok by lia. reflexivity.
Qed.
Lemma loop_ok t k pos : forall l a cur, (length cur + length (path (sdw t k pos) (interw t k pos) (markw k) a l) <= 9)%nat ->
  clip_loop k pos (emb t a) (map (emb t) l) cur = Some (cur ++ map (emb t) (path (sdw t k pos) (interw t k pos) (markw k) a l)).
Proof.
  induction l as [|b l IH]; intros a cur L; cbn [clip_loop map path] in *; [rewrite app_nil_r; reflexivity|].
  rewrite app_length in L. rewrite edge_ok by lia. cbn [and_then]. rewrite IH by (rewrite app_length, map_length; lia).
  rewrite <- app_assoc, map_app. reflexivity.
Qed.
Lemma polygon_ok t k pos l : (length (clipw t k pos l) <= 9)%nat -> clip_polygon k pos (map (emb t) l) = Some (map (emb t) (clipw t k pos l)).
Proof.
  destruct l as [|x l]; [reflexivity|]. intros L. unfold clipw in *. cbn [gclip] in *. cbn [map clip_polygon].
  change (emb t x :: map (emb t) l) with (map (emb t) (x :: l)).
  assert (E : forall m d, last (map (emb t) m) (emb t d) = emb t (last m d)).
  { induction m as [|b m IH]; intros d; [reflexivity|]. cbn [map]. rewrite !last_cons. apply IH. }
  rewrite E, loop_ok by exact L. reflexivity.
Qed.
Lemma clipw_q t k pos l : map w_q (clipw t k pos l) = clip2 (hk t k pos) plane_tol (map w_q l).
Proof. apply gclip_map; reflexivity. Qed.
Lemma clipw_clipped t k pos l : convex_poly (map w_q l) -> clipped (sdw t k pos) (interw t k pos) (markw k) l (clipw t k pos l).
Proof.
  intros C. apply gclip_clipped.
  assert (E : forall m f (g : wv -> bool), (forall w, g w = f (w_q w)) -> cyc g m = cyc f (map w_q m)).
  { intros m f g H. assert (K : forall m a, ch g a m = ch f (w_q a) (map w_q m)) by (induction m0 as [|b m' IH]; intros a; cbn [ch map]; [reflexivity | rewrite IH, !H; reflexivity]).
    destruct m as [|x m]; [reflexivity|]. cbn [cyc]. rewrite K. cbn [map cyc]. f_equal.
    assert (Lm : forall m d, last (map w_q m) (w_q d) = w_q (last m d)) by (induction m0 as [|b m' IH]; intros d; [reflexivity|]; cbn [map]; rewrite !last_cons; apply IH).
    symmetry. apply (Lm (x :: m) x). }
  rewrite (E l (behind (sd2 (hk t k pos) plane_tol))) by reflexivity.
  rewrite (cyc_ext _ _ _ (behind2 _ _ (Rlt_le _ _ tol_pos))). apply C, affine_shift, hk_affine.
Qed.

(** *** The sequence of planes *)
Definition used (t : tri pt) (kp : nat * R) : bool :=
  let '(k, pos) := kp in
  if Nat.even k then (if Rlt_dec pos (tri_max t (axis_of k)) then true else false)
  else (if Rlt_dec (tri_min t (axis_of k)) pos then true else false).
Definition all_planes (lo hi : pt) : list (nat * R) := map (fun k => (k, plane_pos lo hi k)) (seq 0 6).
Definition planes (t : tri pt) (lo hi : pt) : list (nat * R) := filter (used t) (all_planes lo hi).
Definition clip_all (t : tri pt) (l : list (nat * R)) (ws : list wv) : list wv := fold_left (fun ws kp => clipw t (fst kp) (snd kp) ws) l ws.
Definition step (kp : nat * R) : list cvert -> option (list cvert) := clip_polygon (fst kp) (snd kp).
Definition corner (x y : R) : wv := WV (x, y) no_planes.
Definition start : list wv := [corner 0 0; corner 1 0; corner 0 1].
Lemma start_emb t : map (emb t) start = [CV (P1 t) no_planes; CV (P2 t) no_planes; CV (P3 t) no_planes].
Proof.
  unfold start, corner, emb, pos2. cbn [map w_q w_on fst snd]. f_equal; [|f_equal; [|f_equal]]; f_equal; apply pt_eq; intros []; unfold vadd, vscale, vsub; cbn [at_ px py pz]; ring.
Qed.
Lemma start_convex : convex_poly (map w_q start).
Proof. intros f _. cbn. destruct (negf f (0, 0)), (negf f (1, 0)), (negf f (0, 1)); cbn; lia. Qed.
Lemma start_oriented : oriented (map w_q start).
Proof.
  intros i j k u v w Hij Hjk Eu Ev Ew. cbn [map start corner w_q] in *.
  destruct i as [|[|[|i]]]; destruct j as [|[|[|j]]]; destruct k as [|[|[|k]]]; try lia; cbn in Eu, Ev, Ew; try (destruct i; discriminate); try (destruct j; discriminate);
    try (destruct k; discriminate); injection Eu as <-; injection Ev as <-; injection Ew as <-; unfold orient, cr; cbn [fst snd]; lra.
Qed.
Lemma start_area : area_of (map w_q start) = 1.
Proof. unfold area_of, start, corner, cr. cbn [map w_q sh last cr fst snd]. unfold cr. cbn [fst snd]. ring. Qed.
(** All steps succeed. *)
Lemma clip_all_ok t : forall l ws, convex_poly (map w_q ws) -> (length ws + length l <= 9)%nat ->
  fold_left (fun c kp => and_then c (step kp)) l (Some (map (emb t) ws)) = Some (map (emb t) (clip_all t l ws)) /\
  convex_poly (map w_q (clip_all t l ws)) /\ (length (clip_all t l ws) <= length ws + length l)%nat.
Proof.
  induction l as [|[k pos] l IH]; intros ws C L; cbn [fold_left clip_all]; [split; [reflexivity|]; split; [exact C | lia]|].
  cbn [length] in L. assert (Lc := clipped_length _ _ _ _ _ (clipw_clipped t k pos ws C)). cbn [and_then]. unfold step at 2. cbn [fst snd]. rewrite polygon_ok by lia.
  assert (C' : convex_poly (map w_q (clipw t k pos ws))) by (rewrite clipw_q; apply clip_convex; [apply hk_affine | apply Rlt_le, tol_pos | exact C]).
  destruct (IH (clipw t k pos ws) C' ltac:(lia)) as (A & B & D). unfold clip_all in A, B, D. split; [exact A|]. split; [exact B|]. cbn [length]. unfold clip_all. lia.
Qed.
Lemma planes_length t lo hi : (length (planes t lo hi) <= 6)%nat.
Proof. unfold planes. assert (G : forall (f : nat * R -> bool) l, (length (filter f l) <= length l)%nat) by (intros f l; induction l as [|a l IH]; cbn; [lia | destruct (f a); cbn; lia]). specialize (G (used t) (all_planes lo hi)). exact G. Qed.
Lemma direction_planes t lo hi dim cur : (dim < 3)%nat -> clip_direction t lo hi dim cur =
  fold_left (fun c kp => and_then c (step kp)) (filter (used t) [((2 * dim)%nat, plane_pos lo hi (2 * dim)); ((2 * dim + 1)%nat, plane_pos lo hi (2 * dim + 1))]) (Some cur).
Proof.
  intros D. unfold clip_direction. destruct dim as [|[|[|dim]]]; [| | |lia]; cbn [Nat.mul Nat.add filter used Nat.even plane_pos axis_of Nat.div2];
    repeat match goal with |- context [Rlt_dec ?a ?b] => destruct (Rlt_dec a b) end; cbn [fold_left and_then]; unfold step; cbn [fst snd];
    try reflexivity; destruct (clip_polygon _ _ cur); reflexivity.
Qed.
Lemma fold_none {A B} (f : B -> A -> option A) l : fold_left (fun c x => and_then c (f x)) l None = None.
Proof. induction l as [|a l IH]; [reflexivity | exact IH]. Qed.
Lemma fold_bind {A B} (f : B -> A -> option A) l c : fold_left (fun c x => and_then c (f x)) l c = and_then c (fun a => fold_left (fun c x => and_then c (f x)) l (Some a)).
Proof. destruct c; [reflexivity | apply fold_none]. Qed.
Lemma clip_triangle_ok t n lo hi : clip_triangle t n lo hi =
  if existsb (aligned t lo hi) (seq 0 6) then Some None else Some (Some (Poly (map (emb t) (clip_all t (planes t lo hi) start)) n)).
Proof.
  unfold clip_triangle. destruct (existsb (aligned t lo hi) (seq 0 6)); [reflexivity|]. cbv zeta. rewrite <- start_emb.
  assert (E : and_then (clip_direction t lo hi 0 (map (emb t) start)) (fun c => and_then (clip_direction t lo hi 1 c) (clip_direction t lo hi 2)) =
    fold_left (fun c kp => and_then c (step kp)) (planes t lo hi) (Some (map (emb t) start))).
  { unfold planes, all_planes. cbn [seq map]. 
    change (filter (used t) [(0%nat, plane_pos lo hi 0); (1%nat, plane_pos lo hi 1); (2%nat, plane_pos lo hi 2); (3%nat, plane_pos lo hi 3); (4%nat, plane_pos lo hi 4); (5%nat, plane_pos lo hi 5)])
      with (filter (used t) ([(0%nat, plane_pos lo hi 0); (1%nat, plane_pos lo hi 1)] ++ [(2%nat, plane_pos lo hi 2); (3%nat, plane_pos lo hi 3)] ++ [(4%nat, plane_pos lo hi 4); (5%nat, plane_pos lo hi 5)])).
    rewrite !filter_app, !fold_left_app, (direction_planes t lo hi 0) by lia. cbn [Nat.mul Nat.add].
    rewrite (fold_bind step (filter (used t) [(4%nat, plane_pos lo hi 4); (5%nat, plane_pos lo hi 5)])).
    rewrite (fold_bind step (filter (used t) [(2%nat, plane_pos lo hi 2); (3%nat, plane_pos lo hi 3)])).
    match goal with |- and_then ?c _ = _ => destruct c as [c1|] end; cbn [and_then]; [|reflexivity].
    rewrite (direction_planes t lo hi 1) by lia. cbn [Nat.mul Nat.add]. match goal with |- and_then ?c _ = _ => destruct c as [c2|] end; cbn [and_then]; [|reflexivity].
    rewrite (direction_planes t lo hi 2) by lia. reflexivity. }
  rewrite E. assert (Pl := planes_length t lo hi). destruct (clip_all_ok t (planes t lo hi) start start_convex) as (A & _ & _); [cbn [length start]; lia|].
  rewrite A. reflexivity.
Qed.
