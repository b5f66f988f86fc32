(** C55: the segments of a condition. *)
From Coq Require Import Reals List Arith NArith ZArith Bool Lia Lra Permutation.
From Verif Require Import Geo MappingModel TrimmedQuadModel GridModel GridSpec GridProofs GridGeoModel GridGeoProofs GridStoreModel GridStoreSpec GridStoreProofs MeshModel MeshProofs MeshGeoModel MeshGeoProofs MeshBoxProofs MeshSumProofs ClipModel SearchModel GeoQueryModel GeoQueryProofs ClipTheory ClipPlane ClipArea ClipProofs ClipInv ClipMeshProofs ClipCover ClipResult ClipProps ClipAdd ClipGrid ClipCells ConditionModel ConditionProofs.
Import ListNotations.
Local Open Scope R_scope.

(** *** Specification *)
(** The triangles of a segment with their normals; its area. *)
Definition triangles_of {A} (s : segment A) : list (tri pt * pt) := match visit_n (cm_mesh (s_mesh s)) with Some r => r | None => [] end.
Definition area_of_mesh (l : list (tri pt * pt)) : R := sum (fun q => tri_area (fst q)) l.
(** The element that a history of creations gave to a cell (the id of a cell is its index plus one). *)
Definition element_of {A} (h : list (event A)) (i : nat) : option (bool * elem A) :=
  match created h (i + 1) with Some (t, a) => Some (t, Elem (i + 1) a) | None => None end.
Definition attached {A} (s : segment A) : bool := match s_element s with Some _ => true | None => false end.
(** The point is in a triangle of the segment. *)
Definition in_segment {A} (s : segment A) (p : pt) : Prop := exists q, In q (triangles_of s) /\ MeshGeoProofs.in_triangle (fst q) p.

(** *** The loop *)
Section Loop.
Context {A : Type}.
Variables (junk : nat -> node RA) (src : mesh pt) (gi : indexer) (h : list (event A)) (g : gquery) (L : list (tri pt * pt)).
Hypothesis ok : valid_condition gi src.
Hypothesis VL : visit_n src = Some L.
Hypothesis Eg : make_query junk (map fst L) true = Some g.
Let seg := cell_segment g src gi (run h).
Let n := num_elements (gi_grid gi).
Definition seg_spec (i : nat) (o : option (segment A * R)) : Prop := match o with
  | None => forall lo hi q x, cell gi i lo hi -> In q L -> MeshGeoProofs.in_triangle (fst q) x -> ~ strictly_inside lo hi x
  | Some (s, a) => s_index s = i /\ (0 < num_triangles (cm_mesh (s_mesh s)))%nat /\ s_element s = element_of h i /\ holds gi L i (s_mesh s) /\
      a = (if attached s then area_of_mesh (triangles_of s) else 0) /\ clip_unique g src (lower (box_xyz gi i)) (upper (box_xyz gi i)) = Some (s_mesh s)
  end.
Lemma seg_ok i : (i < n)%nat -> exists o, seg i = Some o /\ seg_spec i o /\
  (o = None -> exists m, clip_unique g src (lower (box_xyz gi i)) (upper (box_xyz gi i)) = Some m /\ num_triangles (cm_mesh m) = 0%nat).
Proof.
  intros Li. destruct (cell_holds gi src junk g L ok VL Eg i Li) as (m & Em & Hm). unfold seg, cell_segment. rewrite Em. cbn [and_then].
  destruct (Nat.ltb_spec 0 (num_triangles (cm_mesh m))) as [P|P].
  - rewrite get_element_run. unfold seg_spec, element_of. assert (Hg := proj1 ok). assert (Hb := proj1 (proj2 ok)).
    destruct (cell_exists gi Hg Hb i Li) as (lo & hi & C). destruct (Hm lo hi C) as (r & Om & Vr & _). rewrite (area_visit _ r Vr).
    destruct (created h (i + 1)) as [[t a]|]; cbn [selected and_then]; eexists; (split; [reflexivity|]); (split; [|discriminate]); cbn [s_index s_mesh s_element attached];
      (split; [reflexivity|]); (split; [exact P|]); (split; [reflexivity|]); (split; [exact Hm|]); (split; [|exact Em]); [unfold area_of_mesh, triangles_of; cbn [s_mesh]; rewrite Vr; reflexivity | reflexivity].
  - exists None. split; [reflexivity|]. split; [|intros _; exists m; split; [reflexivity | lia]].
    intros lo hi q x C Iq T S. destruct (Hm lo hi C) as (r & _ & Vr & _ & Cv). destruct (Cv q x Iq T S) as (s & Is & _).
    apply visit_seq in Vr as [Lr _]. destruct r; [destruct Is | cbn [length] in Lr; lia].
Qed.
Lemma segs_total l : (forall i, In i l -> (i < n)%nat) -> exists os, visit_list seg l = Some os.
Proof. intros H. apply visit_total. intros i I. destruct (seg_ok i (H i I)) as (o & E & _). congruence. Qed.
Lemma added_in l os s : visit_list seg l = Some os -> (In s (added os) <-> exists i a, In i l /\ seg i = Some (Some (s, a))).
Proof.
  intros E. unfold added. rewrite in_flat_map. split.
  - intros (o & I & J). destruct o as [[s' a]|]; [|destruct J]. destruct J as [<-|[]]. destruct (visit_in _ _ _ _ E I) as (i & Ii & G). exists i, a. split; assumption.
  - intros (i & a & I & G). destruct (in_visit _ _ _ _ E I) as (o & G' & J). exists o. split; [exact J|]. assert (o = Some (s, a)) as -> by congruence. left; reflexivity.
Qed.
Lemma added_indices : forall l os, (forall i, In i l -> (i < n)%nat) -> visit_list seg l = Some os ->
  map s_index (added os) = List.filter (fun i => match seg i with Some (Some _) => true | _ => false end) l.
Proof.
  induction l as [|i l IH]; intros os H E; cbn [visit_list] in E; [injection E as <-; reflexivity|].
  destruct (seg_ok i (H i (or_introl eq_refl))) as (o & G & Sp & _). cbn [List.filter]. rewrite G in *. destruct (visit_list seg l) as [os'|]; [|discriminate]. injection E as <-.
  specialize (IH os' (fun j J => H j (or_intror J)) eq_refl). destruct o as [[s a]|]; [|exact IH]. unfold added in *. cbn [flat_map app map]. destruct Sp as (-> & _). f_equal. exact IH.
Qed.
Lemma summand_sum l os : (forall i, In i l -> (i < n)%nat) -> visit_list seg l = Some os ->
  sum summand os = sum (fun s => if attached s then area_of_mesh (triangles_of s) else 0) (added os).
Proof.
  intros H E. unfold added. rewrite sum_flat'. apply sum_ext. intros o I. destruct (visit_in _ _ _ _ E I) as (i & Ii & G). destruct (seg_ok i (H i Ii)) as (o' & G' & Sp & _).
  assert (o' = o) as -> by congruence. destruct o as [[s a]|]; [|reflexivity]. cbn [summand sum]. destruct Sp as (_ & _ & _ & _ & -> & _). ring.
Qed.
End Loop.

Lemma omp_cells_small gi : (N.of_nat (num_elements (gi_grid gi)) < 2 ^ 31)%N -> omp_cells gi = seq 0 (num_elements (gi_grid gi)).
Proof. intros H. unfold omp_cells. rewrite int_of_size_small by exact H. f_equal. lia. Qed.
(** What a run computes. *)
Lemma run_condition {A} junk src gi (h : list (event A)) area_chunks chunks order : valid_condition gi src -> schedule gi src area_chunks chunks order -> exists g L os,
  visit_n src = Some L /\ make_query junk (map fst L) true = Some g /\ Permutation order (seq 0 (num_elements (gi_grid gi))) /\
  visit_list (cell_segment g src gi (run h)) order = Some os /\
  compute_condition junk src gi (run h) area_chunks chunks order = Some (Condition (added os) (area_of_mesh L) (sum summand os)
    (if Req_EM_T (area_of_mesh L) 0 then None else Some (sum summand os / area_of_mesh L * 100))).
Proof.
  intros ok (S1 & S2 & S3). assert (ok' := ok). destruct ok as (Hg & Hb & Hw & Hn & Wf & Nz & Nt). rewrite omp_cells_small in S2, S3 by exact Hn.
  destruct (visit_n_wf src Wf) as [L VL]. assert (Ln := L_length src L VL).
  destruct (make_query_ok junk (map fst L) true) as (g & Eg & _); [rewrite map_length, Ln; exact Nt|].
  assert (Bd : forall l, Permutation l (seq 0 (num_elements (gi_grid gi))) -> forall i, In i l -> (i < num_elements (gi_grid gi))%nat) by (intros l P i I; apply (Permutation_in _ P) in I; apply in_seq in I; lia).
  destruct (segs_total junk src gi h g L ok' VL Eg order (Bd _ S3)) as [os Eo]. exists g, L, os. split; [exact VL|]. split; [exact Eg|]. split; [exact S3|]. split; [exact Eo|].
  assert (P : Permutation order (concat chunks)) by (apply (Permutation_trans S3), Permutation_sym, S2). destruct (visit_perm _ _ _ _ P Eo) as (os' & Eo' & Po).
  destruct (visit_chunks_some _ _ _ Eo') as (rc & Er & Ec). unfold compute_condition.
  assert (Nt' : (N.of_nat (num_triangles src) < 2 ^ 31)%N) by (change (2 ^ 30)%Z with 1073741824%Z in Nt; change (2 ^ 31)%N with 2147483648%N; lia).
  rewrite (proj1 (parallel_ok src area_chunks Wf Nt' S1)), (area_visit src L VL). cbn [and_then]. rewrite (visit_fst src L VL). cbn [and_then]. rewrite Eg. cbn [and_then]. rewrite Er. cbn [and_then]. rewrite Eo. cbn [and_then].
  rewrite reduction_sum, Ec, <- (sum_perm _ _ _ Po). reflexivity.
Qed.

(** *** C55 *)
(** The result does not depend on the schedule: the same segments, up to their order, and the same numbers. *)
Lemma same_result {A} junk src gi (h : list (event A)) ac ch o ac' ch' o' : valid_condition gi src -> schedule gi src ac ch o -> schedule gi src ac' ch' o' -> exists c c',
  compute_condition junk src gi (run h) ac ch o = Some c /\ compute_condition junk src gi (run h) ac' ch' o' = Some c' /\ Permutation (co_segments c) (co_segments c') /\
  co_surf_area c = co_surf_area c' /\ co_active_area c = co_active_area c' /\ co_percent c = co_percent c'.
Proof.
  intros ok S S'. destruct (run_condition junk src gi h ac ch o ok S) as (g & L & os & VL & Eg & P & Eo & E). destruct (run_condition junk src gi h ac' ch' o' ok S') as (g' & L' & os' & VL' & Eg' & P' & Eo' & E').
  assert (L' = L) as -> by congruence. assert (g' = g) as -> by congruence. do 2 eexists. split; [exact E|]. split; [exact E'|]. cbn [co_segments co_surf_area co_active_area co_percent].
  destruct (visit_perm _ _ _ _ (Permutation_trans P (Permutation_sym P')) Eo) as (os2 & Eo2 & Po). assert (os2 = os') as -> by congruence.
  split; [apply Permutation_flat_map, Po|]. split; [reflexivity|]. rewrite (sum_perm _ _ _ Po). split; reflexivity.
Qed.
Theorem C55_schedule : forall A junk src gi (h : list (event A)) ac ch o ac' ch' o', valid_condition gi src -> schedule gi src ac ch o -> schedule gi src ac' ch' o' -> exists c c',
  compute_condition junk src gi (run h) ac ch o = Some c /\ compute_condition junk src gi (run h) ac' ch' o' = Some c' /\ Permutation (co_segments c) (co_segments c') /\
  co_surf_area c = co_surf_area c' /\ co_active_area c = co_active_area c' /\ co_percent c = co_percent c'.
Proof. exact @same_result. Qed.
Print Assumptions C55_schedule.

(** Every cell has at most one segment; segments are not empty, and they hold exactly the element that was created for
    their cell. *)
Lemma segments_attached {A} junk src gi (h : list (event A)) ac ch o c : valid_condition gi src -> schedule gi src ac ch o -> compute_condition junk src gi (run h) ac ch o = Some c ->
  NoDup (map s_index (co_segments c)) /\
  forall s, In s (co_segments c) -> (s_index s < num_elements (gi_grid gi))%nat /\ triangles_of s <> [] /\ well_formed (cm_mesh (s_mesh s)) /\ s_element s = element_of h (s_index s).
Proof.
  intros ok S E. destruct (run_condition junk src gi h ac ch o ok S) as (g & L & os & VL & Eg & P & Eo & E'). rewrite E' in E. injection E as <-. cbn [co_segments].
  assert (Bd : forall i, In i o -> (i < num_elements (gi_grid gi))%nat) by (intros i I; apply (Permutation_in _ P) in I; apply in_seq in I; lia). split.
  - rewrite (added_indices junk src gi h g L ok VL Eg o os Bd Eo). apply NoDup_filter. apply (Permutation_NoDup (Permutation_sym P)), seq_NoDup.
  - intros s I. apply (added_in src gi h g o os s Eo) in I as (i & a & Ii & G). destruct (seg_ok junk src gi h g L ok VL Eg i (Bd i Ii)) as (o' & G' & Sp & _). assert (o' = Some (s, a)) as -> by congruence.
    destruct Sp as (Ei & Np & El & Hm & _). rewrite Ei. split; [apply Bd, Ii|]. destruct (cell_exists gi (proj1 ok) (proj1 (proj2 ok)) i (Bd i Ii)) as (lo & hi & C). destruct (Hm lo hi C) as (r & Om & Vr & _).
    split; [|split; [apply Om | exact El]]. unfold triangles_of. rewrite Vr. apply visit_seq in Vr as [Lr _]. intros ->. cbn in Lr. lia.
Qed.
Theorem C55_attach : forall A junk src gi (h : list (event A)) ac ch o c, valid_condition gi src -> schedule gi src ac ch o -> compute_condition junk src gi (run h) ac ch o = Some c ->
  NoDup (map s_index (co_segments c)) /\
  forall s, In s (co_segments c) -> (s_index s < num_elements (gi_grid gi))%nat /\ triangles_of s <> [] /\ well_formed (cm_mesh (s_mesh s)) /\ s_element s = element_of h (s_index s).
Proof. exact @segments_attached. Qed.
Print Assumptions C55_attach.
(** After the creation loop of the model: a segment has an element exactly if its cell is classified as trimmed or inside and
    the element could be built. *)
Lemma segments_active {A} junk src gi cls (bt bu : nat -> option A) l ac ch o c s : valid_condition gi src -> schedule gi src ac ch o -> Permutation l (active_indices cls (num_elements (gi_grid gi))) ->
  compute_condition junk src gi (run_loop cls bt bu l) ac ch o = Some c -> In s (co_segments c) ->
  (attached s = true <-> (cls (s_index s) = Trimmed /\ bt (s_index s) <> None) \/ (cls (s_index s) = Inside /\ bu (s_index s) <> None)).
Proof.
  intros ok S P E I. unfold run_loop in E. destruct (segments_attached junk src gi _ ac ch o c ok S E) as [_ H]. destruct (H s I) as (Li & _ & _ & El). set (i := s_index s) in *.
  assert (G := loop_element cls bt bu (num_elements (gi_grid gi)) l i FAll P). unfold run_loop in G. rewrite get_element_run in G. unfold attached. rewrite El. unfold element_of.
  destruct (Nat.ltb_spec i (num_elements (gi_grid gi))) as [_|F]; [|lia].
  destruct (created _ (i + 1)) as [[t a]|] eqn:Ec; cbn [selected] in G; destruct (cls i) eqn:Ei; try discriminate; (split; [intros At; try discriminate | intros At; try reflexivity; exfalso]).
  - right. split; [reflexivity|]. destruct (bu i); [discriminate | discriminate G].
  - left. split; [reflexivity|]. destruct (bt i); [discriminate | discriminate G].
  - destruct At as [[? ?]|[_ Nn]]; [discriminate|]. destruct (bu i); [discriminate G | congruence].
  - destruct At as [[? ?]|[? ?]]; discriminate.
  - destruct At as [[_ Nn]|[? ?]]; [|discriminate]. destruct (bt i); [discriminate G | congruence].
Qed.
Theorem C55_active : forall A junk src gi cls (bt bu : nat -> option A) l ac ch o c s, valid_condition gi src -> schedule gi src ac ch o -> Permutation l (active_indices cls (num_elements (gi_grid gi))) ->
  compute_condition junk src gi (run_loop cls bt bu l) ac ch o = Some c -> In s (co_segments c) ->
  (attached s = true <-> (cls (s_index s) = Trimmed /\ bt (s_index s) <> None) \/ (cls (s_index s) = Inside /\ bu (s_index s) <> None)).
Proof. exact @segments_active. Qed.
Print Assumptions C55_active.

(** Every triangle of a segment is a piece of a triangle of the condition that reaches its cell, has its normal, and is in the
    cell up to the tolerance; every point of the condition in a cell by more than the tolerance is in the segment of this cell, in a triangle with the normal. *)
Lemma segments_cover {A} junk src gi (h : list (event A)) ac ch o c tris : valid_condition gi src -> schedule gi src ac ch o -> compute_condition junk src gi (run h) ac ch o = Some c -> visit_n src = Some tris ->
  (forall s q lo hi, In s (co_segments c) -> In q (triangles_of s) -> cell gi (s_index s) lo hi -> exists t, In t tris /\ snd q = snd t /\ piece_of (fst q) (fst t) /\
     (exists x, MeshGeoProofs.in_triangle (fst t) x /\ in_box lo hi zerotol x) /\ forall p d, MeshGeoProofs.in_triangle (fst q) p -> at_ d lo - plane_tol <= at_ d p <= at_ d hi + plane_tol) /\
  (forall i lo hi t p, cell gi i lo hi -> In t tris -> MeshGeoProofs.in_triangle (fst t) p -> strictly_inside lo hi p ->
     exists s q, In s (co_segments c) /\ s_index s = i /\ In q (triangles_of s) /\ snd q = snd t /\ MeshGeoProofs.in_triangle (fst q) p).
Proof.
  intros ok S E VL'. destruct (run_condition junk src gi h ac ch o ok S) as (g & L & os & VL & Eg & P & Eo & E'). rewrite E' in E. injection E as <-. cbn [co_segments]. assert (tris = L) as -> by congruence. clear VL'.
  assert (Bd : forall i, In i o -> (i < num_elements (gi_grid gi))%nat) by (intros i I; apply (Permutation_in _ P) in I; apply in_seq in I; lia). split.
  - intros s q lo hi I Iq C. apply (added_in src gi h g o os s Eo) in I as (i & a & Ii & G). destruct (seg_ok junk src gi h g L ok VL Eg i (Bd i Ii)) as (o' & G' & Sp & _). assert (o' = Some (s, a)) as -> by congruence.
    destruct Sp as (Ei & Np & El & Hm & _). rewrite Ei in C. destruct (Hm lo hi C) as (r & _ & Vr & H1 & _). unfold triangles_of in Iq. rewrite Vr in Iq.
    destruct (H1 q Iq) as (t & It & Sn & Pc & X & B). exists t. split; [exact It|]. split; [exact Sn|]. split; [exact Pc|]. split; [exact X|].
    intros p d T. assert (B1 := B (P1 (fst q)) d (or_introl eq_refl)). assert (B2 := B (P2 (fst q)) d (or_intror (or_introl eq_refl))). assert (B3 := B (P3 (fst q)) d (or_intror (or_intror (or_introl eq_refl)))).
    destruct T as (u & v & w & U & V & W & Sm & ->).
    assert (Ed : at_ d (vadd (vadd (vscale u (P1 (fst q))) (vscale v (P2 (fst q)))) (vscale w (P3 (fst q)))) = u * at_ d (P1 (fst q)) + v * at_ d (P2 (fst q)) + w * at_ d (P3 (fst q))) by (destruct d; reflexivity).
    rewrite Ed. nra.
  - intros i lo hi t p C It T Si. assert (Li : (i < num_elements (gi_grid gi))%nat) by (apply (cell_iff gi (proj1 ok) (proj1 (proj2 ok))) in C; apply C).
    assert (Ii : In i o) by (apply (Permutation_in _ (Permutation_sym P)), in_seq; lia). destruct (seg_ok junk src gi h g L ok VL Eg i Li) as (o' & G' & Sp & _). destruct o' as [[s a]|].
    + destruct Sp as (Ei & Np & El & Hm & _). destruct (Hm lo hi C) as (r & _ & Vr & _ & Cv). destruct (Cv t p It T Si) as (q & Iq & X & Sn). exists s, q.
      split; [apply (added_in src gi h g o os s Eo); exists i, a; split; assumption|]. split; [exact Ei|]. split; [unfold triangles_of; rewrite Vr; exact Iq|]. split; assumption.
    + exfalso. exact (Sp lo hi t p C It T Si).
Qed.
Theorem C55_cover : forall A junk src gi (h : list (event A)) ac ch o c tris, valid_condition gi src -> schedule gi src ac ch o -> compute_condition junk src gi (run h) ac ch o = Some c -> visit_n src = Some tris ->
  (forall s q lo hi, In s (co_segments c) -> In q (triangles_of s) -> cell gi (s_index s) lo hi -> exists t, In t tris /\ snd q = snd t /\ piece_of (fst q) (fst t) /\
     (exists x, MeshGeoProofs.in_triangle (fst t) x /\ in_box lo hi zerotol x) /\ forall p d, MeshGeoProofs.in_triangle (fst q) p -> at_ d lo - plane_tol <= at_ d p <= at_ d hi + plane_tol) /\
  (forall i lo hi t p, cell gi i lo hi -> In t tris -> MeshGeoProofs.in_triangle (fst t) p -> strictly_inside lo hi p ->
     exists s q, In s (co_segments c) /\ s_index s = i /\ In q (triangles_of s) /\ snd q = snd t /\ MeshGeoProofs.in_triangle (fst q) p).
Proof. exact @segments_cover. Qed.
Print Assumptions C55_cover.

(** No part is doubled: a point off all planes by more than the tolerance is in at most one segment. *)
Definition off_planes (gi : indexer) (p : pt) : Prop := forall d i, (i <= n_at d (gi_grid gi))%nat -> plane_tol < Rabs (at_ d p - plane_at gi d i).
Lemma axis_pos gi d p x x' : (forall d, plane_tol < (at_ d (upper (gi_xyz gi)) - at_ d (lower (gi_xyz gi))) / INR (n_at d (gi_grid gi))) ->
  off_planes gi p -> (x < n_at d (gi_grid gi))%nat -> (x' < n_at d (gi_grid gi))%nat ->
  plane_at gi d x - plane_tol <= at_ d p <= plane_at gi d (S x) + plane_tol -> plane_at gi d x' - plane_tol <= at_ d p <= plane_at gi d (S x') + plane_tol -> x = x'.
Proof.
  intros Hw' Off Lx Lx' B B'.
  assert (Mono : forall a b, (a <= b)%nat -> plane_at gi d a <= plane_at gi d b).
  { intros a b Lab. induction Lab as [|b Lab IH]; [lra|]. rewrite plane_step. specialize (Hw' d). assert (Tp := tol_pos). lra. }
  assert (Side : forall a b, (a < n_at d (gi_grid gi))%nat -> (b < n_at d (gi_grid gi))%nat -> (a < b)%nat -> plane_at gi d b - plane_tol <= at_ d p -> at_ d p <= plane_at gi d (S a) + plane_tol -> False).
  { intros a b La Lb Lab H1 H2. assert (M := Mono (S a) b ltac:(lia)). assert (F1 := Off d (S a) ltac:(lia)). assert (F2 := Off d b ltac:(lia)). assert (Tp := tol_pos).
    revert F1 F2. unfold Rabs. destruct (Rcase_abs _), (Rcase_abs _); intros; lra. }
  destruct (lt_eq_lt_dec x x') as [[K | K] | K]; [exfalso; apply (Side x x'); lra || lia | exact K | exfalso; apply (Side x' x); lra || lia].
Qed.
Lemma segments_once {A} junk src gi (h : list (event A)) ac ch o c p s s' : valid_condition gi src -> schedule gi src ac ch o -> compute_condition junk src gi (run h) ac ch o = Some c ->
  In s (co_segments c) -> In s' (co_segments c) -> in_segment s p -> in_segment s' p -> off_planes gi p -> s = s'.
Proof.
  intros ok S E I I' (q & Iq & T) (q' & Iq' & T') Off. destruct (segments_attached junk src gi h ac ch o c ok S E) as [Nd H]. destruct (visit_n_wf src (proj1 (proj2 (proj2 (proj2 (proj2 ok)))))) as [L VL].
  destruct (segments_cover junk src gi h ac ch o c L ok S E VL) as [Cv _]. assert (Hw := proj1 (proj2 (proj2 ok))).
  assert (Ei : s_index s = s_index s').
  { destruct (cell_exists gi (proj1 ok) (proj1 (proj2 ok)) (s_index s) (proj1 (H s I))) as (lo & hi & C). destruct (cell_exists gi (proj1 ok) (proj1 (proj2 ok)) (s_index s') (proj1 (H s' I'))) as (lo' & hi' & C').
    destruct (Cv s q lo hi I Iq C) as (_ & _ & _ & _ & _ & B). destruct (Cv s' q' lo' hi' I' Iq' C') as (_ & _ & _ & _ & _ & B').
    destruct C as (x & y & z & X & Y & Z & -> & -> & ->). destruct C' as (x' & y' & z' & X' & Y' & Z' & -> & -> & ->).
    assert (x = x') as -> by (apply (axis_pos gi AX p); [exact Hw | exact Off | exact X | exact X' | exact (B p AX T) | exact (B' p AX T')]).
    assert (y = y') as -> by (apply (axis_pos gi AY p); [exact Hw | exact Off | exact Y | exact Y' | exact (B p AY T) | exact (B' p AY T')]).
    assert (z = z') as -> by (apply (axis_pos gi AZ p); [exact Hw | exact Off | exact Z | exact Z' | exact (B p AZ T) | exact (B' p AZ T')]). reflexivity. }
  clear -Nd I I' Ei. induction (co_segments c) as [|a l IH]; [destruct I|]. cbn [map] in Nd. inversion Nd as [|? ? Na Nl]; subst.
  destruct I as [->|I], I' as [->|I']; [reflexivity | exfalso; apply Na; rewrite Ei; apply in_map, I' | exfalso; apply Na; rewrite <- Ei; apply in_map, I | apply IH; assumption].
Qed.
Theorem C55_once : forall A junk src gi (h : list (event A)) ac ch o c p s s', valid_condition gi src -> schedule gi src ac ch o -> compute_condition junk src gi (run h) ac ch o = Some c ->
  In s (co_segments c) -> In s' (co_segments c) -> in_segment s p -> in_segment s' p -> off_planes gi p -> s = s'.
Proof. exact @segments_once. Qed.
Print Assumptions C55_once.

(** The numbers that are reported. *)
Lemma reported {A} junk src gi (h : list (event A)) ac ch o c tris : valid_condition gi src -> schedule gi src ac ch o -> compute_condition junk src gi (run h) ac ch o = Some c -> visit_n src = Some tris ->
  co_surf_area c = area_of_mesh tris /\ co_active_area c = sum (fun s => area_of_mesh (triangles_of s)) (List.filter attached (co_segments c)) /\
  (0 < co_surf_area c -> co_percent c = Some (co_active_area c / co_surf_area c * 100)) /\ (co_surf_area c = 0 -> co_percent c = None).
Proof.
  intros ok S E VL'. destruct (run_condition junk src gi h ac ch o ok S) as (g & L & os & VL & Eg & P & Eo & E'). rewrite E' in E. injection E as <-. cbn [co_segments co_surf_area co_active_area co_percent]. assert (tris = L) as -> by congruence.
  assert (Bd : forall i, In i o -> (i < num_elements (gi_grid gi))%nat) by (intros i I; apply (Permutation_in _ P) in I; apply in_seq in I; lia).
  split; [reflexivity|]. split; [|split].
  - rewrite (summand_sum junk src gi h g L ok VL Eg o os Bd Eo). clear; induction (added os) as [|s l IH]; [reflexivity|]. cbn [sum List.filter]. rewrite IH. destruct (attached s); cbn [sum]; ring.
  - intros Pa. destruct (Req_EM_T (area_of_mesh L) 0); [lra | reflexivity].
  - intros Z. destruct (Req_EM_T (area_of_mesh L) 0); [reflexivity | contradiction].
Qed.
Theorem C55_numbers : forall A junk src gi (h : list (event A)) ac ch o c tris, valid_condition gi src -> schedule gi src ac ch o -> compute_condition junk src gi (run h) ac ch o = Some c -> visit_n src = Some tris ->
  co_surf_area c = area_of_mesh tris /\ co_active_area c = sum (fun s => area_of_mesh (triangles_of s)) (List.filter attached (co_segments c)) /\
  (0 < co_surf_area c -> co_percent c = Some (co_active_area c / co_surf_area c * 100)) /\ (co_surf_area c = 0 -> co_percent c = None).
Proof. exact @reported. Qed.
Print Assumptions C55_numbers.

(** For triangles in general position within the grid the areas of the segments add up to the area of the condition; the
    percentage is between 0 and 100, and 100 if all segments have an element. *)
Definition all_general (gi : indexer) (tris : list (tri pt * pt)) : Prop := forall q, In q tris ->
  general_position (plane_at gi) (fun d => n_at d (gi_grid gi)) (fst q) /\ within_grid (plane_at gi) (fun d => n_at d (gi_grid gi)) (fst q).
Lemma areas_add_up {A} junk src gi (h : list (event A)) ac ch o c tris : valid_condition gi src -> schedule gi src ac ch o -> compute_condition junk src gi (run h) ac ch o = Some c -> visit_n src = Some tris -> all_general gi tris ->
  sum (fun s => area_of_mesh (triangles_of s)) (co_segments c) = area_of_mesh tris.
Proof.
  intros ok S E VL' gp. destruct (run_condition junk src gi h ac ch o ok S) as (g & L & os & VL & Eg & P & Eo & E'). rewrite E' in E. injection E as <-. cbn [co_segments]. assert (tris = L) as -> by congruence.
  assert (Bd : forall i, In i o -> (i < num_elements (gi_grid gi))%nat) by (intros i I; apply (Permutation_in _ P) in I; apply in_seq in I; lia).
  unfold area_of_mesh at 2. rewrite <- (cells_area gi src L ok gp). rewrite <- (sum_perm _ _ _ P).
  unfold added. rewrite sum_flat'. apply (visit_sum (cell_segment g src gi (run h))) with (l := o); [|exact Eo].
  intros i oo Ii G. assert (Li := Bd i Ii). destruct (seg_ok junk src gi h g L ok VL Eg i Li) as (o' & G' & Sp & Nn). assert (o' = oo) as -> by congruence.
  destruct (cell_holds gi src junk g L ok VL Eg i Li) as (m & Em & Hm). destruct (cell_exists gi (proj1 ok) (proj1 (proj2 ok)) i Li) as (lo & hi & C). destruct (Hm lo hi C) as (r & _ & Vr & _).
  rewrite <- (cell_area gi src junk g L ok VL Eg gp i m r Li Em Vr). destruct oo as [[s a]|].
  - destruct Sp as (_ & _ & _ & _ & _ & Em'). assert (s_mesh s = m) by congruence. cbn [sum]. unfold triangles_of. rewrite H, Vr. unfold area_of_mesh. ring.
  - destruct (Nn eq_refl) as (m' & Em' & Z). assert (m' = m) as -> by congruence. apply visit_seq in Vr as [Lr _]. rewrite Z in Lr. destruct r; [reflexivity | discriminate].
Qed.
Lemma area_of_mesh_nonneg l : 0 <= area_of_mesh l.
Proof. apply sum_nonneg. intros q _. apply area_nonneg. Qed.
Lemma areas_percent {A} junk src gi (h : list (event A)) ac ch o c tris : valid_condition gi src -> schedule gi src ac ch o -> compute_condition junk src gi (run h) ac ch o = Some c -> visit_n src = Some tris -> all_general gi tris ->
  sum (fun s => area_of_mesh (triangles_of s)) (co_segments c) = co_surf_area c /\
  forall v, co_percent c = Some v -> 0 <= v <= 100 /\ ((forall s, In s (co_segments c) -> attached s = true) -> v = 100) /\ ((forall s, In s (co_segments c) -> attached s = false) -> v = 0).
Proof.
  intros ok S E VL gp. assert (Sm := areas_add_up junk src gi h ac ch o c tris ok S E VL gp). destruct (reported junk src gi h ac ch o c tris ok S E VL) as (Ea & Eact & Pp & Pz). rewrite Ea. split; [exact Sm|].
  intros v Ev. assert (Na := area_of_mesh_nonneg tris). rewrite <- Ea in Na. assert (Pa : 0 < co_surf_area c) by (destruct Na as [Na|Na]; [exact Na | rewrite (Pz (eq_sym Na)) in Ev; discriminate]).
  rewrite (Pp Pa) in Ev. injection Ev as <-. rewrite Ea in *. assert (Rg : 0 <= co_active_area c <= area_of_mesh tris).
  { rewrite Eact, <- Sm. clear. induction (co_segments c) as [|s l IH]; cbn [List.filter sum]; [lra|]. assert (N := area_of_mesh_nonneg (triangles_of s)). destruct (attached s); cbn [sum]; lra. }
  split; [|split].
  - assert (0 <= co_active_area c / area_of_mesh tris <= 1); [|lra]. split.
    + apply Rmult_le_pos; [lra | apply Rlt_le, Rinv_0_lt_compat, Pa].
    + apply (Rmult_le_reg_r (area_of_mesh tris)); [exact Pa|]. unfold Rdiv. rewrite Rmult_assoc, Rinv_l by lra. lra.
  - intros H. assert (F : List.filter attached (co_segments c) = co_segments c).
    { clear -H. induction (co_segments c) as [|s l IH]; [reflexivity|]. cbn [List.filter]. rewrite H by (left; reflexivity). f_equal. apply IH. intros s' I. apply H. right; exact I. }
    rewrite F, Sm in Eact. rewrite Eact. field. lra.
  - intros H. assert (F : List.filter attached (co_segments c) = []).
    { clear -H. induction (co_segments c) as [|s l IH]; [reflexivity|]. cbn [List.filter]. rewrite H by (left; reflexivity). apply IH. intros s' I. apply H. right; exact I. }
    rewrite F in Eact. cbn [sum] in Eact. rewrite Eact. field. lra.
Qed.
Theorem C55_area : forall A junk src gi (h : list (event A)) ac ch o c tris, valid_condition gi src -> schedule gi src ac ch o -> compute_condition junk src gi (run h) ac ch o = Some c -> visit_n src = Some tris -> all_general gi tris ->
  sum (fun s => area_of_mesh (triangles_of s)) (co_segments c) = co_surf_area c /\
  forall v, co_percent c = Some v -> 0 <= v <= 100 /\ ((forall s, In s (co_segments c) -> attached s = true) -> v = 100) /\ ((forall s, In s (co_segments c) -> attached s = false) -> v = 0).
Proof. exact @areas_percent. Qed.
Print Assumptions C55_area.

(** *** What the guards are for *)
Lemma no_pieces src ids lo hi l : visit_list (triangle_n src) ids = Some l -> (forall q, In q l -> clip_triangle (fst q) (snd q) lo hi = Some None) -> clip_mesh src ids lo hi = Some empty_cmesh.
Proof.
  intros El N. unfold clip_mesh. rewrite El. cbn [and_then]. assert (F : forall l m, (forall q, In q l -> clip_triangle (fst q) (snd q) lo hi = Some None) -> fold_left (fun m q => and_then m (clip_one lo hi q)) l (Some m) = Some m).
  { clear. induction l as [|q l IH]; intros m H; [reflexivity|]. cbn [fold_left and_then]. unfold clip_one at 2. rewrite H by (left; reflexivity). apply IH. intros q' I. apply H. right; exact I. }
  rewrite F by exact N. reflexivity.
Qed.
Lemma all_lost {A} junk src gi (h : list (event A)) ac ch o c tris : valid_condition gi src -> schedule gi src ac ch o -> compute_condition junk src gi (run h) ac ch o = Some c -> visit_n src = Some tris ->
  (forall i lo hi q, cell gi i lo hi -> In q tris -> exists k f, face lo hi k = Some f /\ forall p, In p (corners_of (fst q)) -> near f p) -> co_segments c = [].
Proof.
  intros ok S E VL' N. destruct (run_condition junk src gi h ac ch o ok S) as (g & L & os & VL & Eg & P & Eo & E'). rewrite E' in E. injection E as <-. cbn [co_segments]. assert (tris = L) as -> by congruence.
  assert (Bd : forall i, In i o -> (i < num_elements (gi_grid gi))%nat) by (intros i I; apply (Permutation_in _ P) in I; apply in_seq in I; lia).
  destruct (added os) as [|s l] eqn:Ea; [reflexivity|]. exfalso. assert (I : In s (added os)) by (rewrite Ea; left; reflexivity).
  apply (added_in src gi h g o os s Eo) in I as (i & a & Ii & G). destruct (seg_ok junk src gi h g L ok VL Eg i (Bd i Ii)) as (o' & G' & Sp & _). assert (o' = Some (s, a)) as -> by congruence.
  destruct Sp as (_ & Np & _ & _ & _ & Em). destruct (cell_exists gi (proj1 ok) (proj1 (proj2 ok)) i (Bd i Ii)) as (lo & hi & C). assert (C' := C). apply (cell_iff gi (proj1 ok) (proj1 (proj2 ok))) in C' as (_ & El & Eh).
  destruct (cell_clip gi src junk g L ok VL Eg i lo hi C) as (ids & l0 & m & news & Ei & _ & Hids & El0 & Ecl & _). unfold clip_unique in Em. cbv zeta in Em. rewrite <- El, <- Eh, Ei in Em. cbn [and_then] in Em.
  rewrite (no_pieces src ids lo hi l0 El0) in Em; [injection Em as Em; rewrite <- Em in Np; cbn in Np; lia|].
  intros q Iq. apply clip_null. apply (N i lo hi q C). destruct (visit_in _ _ _ _ El0 Iq) as (j & _ & Ej). apply (L_nth src L VL) in Ej. apply (nth_error_In _ _ Ej).
Qed.
(** A triangle of the condition in a dividing plane is in no segment: nothing of this condition is attached, whatever the
    elements are. *)
Definition two_cells : indexer := Indexer (Grid 2 1 1) (Box (Pt 0 0 0) (Pt 2 1 1)) (Box (Pt 0 0 0) (Pt 1 1 1)) true.
Definition in_plane : R := 1 + 3 / 10 ^ 13.
Definition sheet : mesh pt := Mesh [Pt in_plane (1/4) (1/4); Pt in_plane (3/4) (1/4); Pt in_plane (1/4) (3/4)] [(0, 1, 2)%nat] [Pt 1 0 0].
Definition sheet_tri : tri pt := Tri (Pt in_plane (1/4) (1/4)) (Pt in_plane (3/4) (1/4)) (Pt in_plane (1/4) (3/4)).
Lemma two_cells_valid src : well_formed src -> num_triangles src = 1%nat -> valid_condition two_cells src.
Proof.
  intros W N. assert (Tp : plane_tol < / 100) by (unfold plane_tol, zerotol; lra). refine (conj _ (conj _ (conj _ (conj _ (conj W (conj _ _)))))).
  - cbv [grid_ok two_cells gi_grid nx ny nz]. lia.
  - intros [| |]; cbn [two_cells gi_xyz lower upper at_ px py pz]; lra.
  - intros [| |]; cbn [two_cells gi_xyz gi_grid lower upper at_ px py pz n_at nx ny nz]; replace (INR 1) with 1 by reflexivity; replace (INR 2) with 2 by reflexivity; lra.
  - reflexivity.
  - rewrite N. lia.
  - rewrite N. change (2 ^ 30)%Z with 1073741824%Z. lia.
Qed.
Lemma two_cells_planes : (forall i, plane_at two_cells AX i = INR i + 3 / 10 ^ 13) /\ (forall d i, d <> AX -> plane_at two_cells d i = INR i + 3 / 10 ^ 13).
Proof.
  split; [|intros d]; intros i; [|intros Nd]; unfold plane_at; [|destruct d; [contradiction| |]]; cbn [two_cells gi_xyz gi_grid lower upper at_ px py pz n_at nx ny nz]; replace (INR 1) with 1 by reflexivity; replace (INR 2) with 2 by reflexivity; field.
Qed.
Lemma sheet_ok : well_formed sheet /\ num_triangles sheet = 1%nat /\ visit_n sheet = Some [(sheet_tri, Pt 1 0 0)].
Proof. split; [split; [reflexivity | repeat constructor; cbn; lia]|]. split; reflexivity. Qed.
Lemma sheet_area : 0 < area_of_mesh [(sheet_tri, Pt 1 0 0)].
Proof.
  unfold area_of_mesh. cbn [sum fst]. enough (0 < tri_area sheet_tri) by lra. unfold tri_area. assert (N : 0 < norm (cross (vsub (P2 sheet_tri) (P1 sheet_tri)) (vsub (P3 sheet_tri) (P1 sheet_tri)))); [|lra].
  unfold norm. apply sqrt_lt_R0. generalize in_plane as a. intros a. cbv [dot cross vsub px py pz sheet_tri P1 P2 P3]. nra.
Qed.
Theorem C55_on_plane_refuted : valid_condition two_cells sheet /\ (forall p, In p (m_vertices sheet) -> in_open (gi_xyz two_cells) p) /\
  forall A junk (h : list (event A)) ac ch o, schedule two_cells sheet ac ch o -> exists c, compute_condition junk sheet two_cells (run h) ac ch o = Some c /\
    co_segments c = [] /\ 0 < co_surf_area c /\ co_percent c = Some 0.
Proof.
  destruct sheet_ok as (W & N & V). assert (ok := two_cells_valid sheet W N). split; [exact ok|]. split.
  - intros p I d. cbn [sheet m_vertices In] in I. unfold in_plane in I. decompose [or] I; try subst p; try contradiction; destruct d; cbn [two_cells gi_xyz lower upper at_ px py pz]; lra.
  - intros A junk h ac ch o S. destruct (run_condition junk sheet two_cells h ac ch o ok S) as (g & L & os & VL & Eg & P & Eo & E'). eexists. split; [exact E'|].
    assert (Lo := all_lost junk sheet two_cells h ac ch o _ _ ok S E' V). assert (Rp := reported junk sheet two_cells h ac ch o _ _ ok S E' V).
    destruct Rp as (Ea & Eact & Pp & _). assert (Sg : added os = []).
    { apply Lo. intros i lo hi q (x & y & z & X & Y & Z & _ & -> & ->) [<-|[]]. assert (Tp := tol_pos).
      assert (K : x = 0%nat \/ x = 1%nat) by (cbn [two_cells gi_grid nx] in X; lia). destruct two_cells_planes as [Px _]. destruct K as [-> | ->].
      - exists 1%nat, (AX, plane_at two_cells AX 1). split; [reflexivity|]. intros p Ip. unfold near. cbn [fst snd]. rewrite Px. replace (INR 1) with 1 by reflexivity.
        replace (at_ AX p) with in_plane by (cbn [corners_of sheet_tri fst In P1 P2 P3] in Ip; decompose [or] Ip; try subst p; try contradiction; reflexivity).
        unfold in_plane. rewrite Rminus_diag_eq by reflexivity. rewrite Rabs_R0. lra.
      - exists 0%nat, (AX, plane_at two_cells AX 1). split; [reflexivity|]. intros p Ip. unfold near. cbn [fst snd]. rewrite Px. replace (INR 1) with 1 by reflexivity.
        replace (at_ AX p) with in_plane by (cbn [corners_of sheet_tri fst In P1 P2 P3] in Ip; decompose [or] Ip; try subst p; try contradiction; reflexivity).
        unfold in_plane. rewrite Rminus_diag_eq by reflexivity. rewrite Rabs_R0. lra. }
    cbn [co_segments co_surf_area co_active_area co_percent] in *. rewrite Sg in *. assert (Pa := sheet_area). rewrite <- Ea in Pa. split; [reflexivity|]. split; [exact Pa|]. rewrite (Pp Pa), Eact. cbn [List.filter sum]. f_equal. field. lra.
Qed.
Print Assumptions C55_on_plane_refuted.

(** The number of cells is converted to int: with 2^31 cells (and fewer than 2^32) there is no segment at all. *)
Lemma no_cells gi : (2 ^ 31 <= N.of_nat (num_elements (gi_grid gi)) < 2 ^ 32)%N -> omp_cells gi = [].
Proof.
  intros [A B]. unfold omp_cells, int_of_size. change (2 ^ 31)%N with 2147483648%N in A. change (2 ^ 32)%N with 4294967296%N in B. change (2 ^ 31)%Z with 2147483648%Z. change (2 ^ 32)%Z with 4294967296%Z.
  rewrite Z.mod_small by lia. destruct (Z.ltb_spec (Z.of_N (N.of_nat (num_elements (gi_grid gi)))) 2147483648); [lia|].
  replace (Z.to_nat _) with 0%nat by lia. reflexivity.
Qed.
Definition many_cells : indexer := Indexer (Grid 2048 1024 1024) (Box (Pt 0 0 0) (Pt 2 1 1)) (Box (Pt 0 0 0) (Pt 1 1 1)) true.
Lemma many_cells_count : N.of_nat (num_elements (gi_grid many_cells)) = (2 ^ 31)%N.
Proof.
  unfold num_elements, many_cells. cbn [gi_grid nx ny nz]. rewrite !Nat2N.inj_mul. replace (N.of_nat 2048) with 2048%N by reflexivity. replace (N.of_nat 1024) with 1024%N by reflexivity. reflexivity.
Qed.
Theorem C55_many_cells_refuted : (N.of_nat (num_elements (gi_grid many_cells)) = 2 ^ 31)%N /\
  forall A junk src gi (h : list (event A)) ac ch o c, (2 ^ 31 <= N.of_nat (num_elements (gi_grid gi)) < 2 ^ 32)%N -> schedule gi src ac ch o -> compute_condition junk src gi (run h) ac ch o = Some c -> co_segments c = [] /\ co_active_area c = 0.
Proof.
  split; [exact many_cells_count|]. intros A junk src gi h ac ch o c N (_ & S2 & S3) E. rewrite (no_cells gi N) in S2, S3. apply Permutation_sym, Permutation_nil in S3 as ->. apply Permutation_sym, Permutation_nil in S2.
  unfold compute_condition in E. destruct (mesh_area_omp ac src); cbn [and_then] in E; [|discriminate]. destruct (visit src); cbn [and_then] in E; [|discriminate]. destruct (make_query junk l true) as [g|]; cbn [and_then] in E; [|discriminate].
  destruct (visit_chunks _ ch) as [cs|] eqn:Ec; cbn [and_then] in E; [|discriminate]. cbn [visit_list and_then] in E. injection E as <-. cbn [co_segments co_active_area]. split; [reflexivity|].
  assert (V : visit_list (cell_segment g src gi (run h)) (concat ch) = Some []) by (rewrite S2; reflexivity). destruct (visit_chunks_some _ _ _ V) as (rc & Er & Ecc). assert (rc = cs) as -> by congruence.
  rewrite reduction_sum, Ecc. reflexivity.
Qed.
Print Assumptions C55_many_cells_refuted.

(** *** Example: a triangle across two cells. *)
Definition across : mesh pt := Mesh [Pt (1/2) (1/4) (1/2); Pt (3/2) (1/4) (1/2); Pt (1/2) (3/4) (1/2)] [(0, 1, 2)%nat] [Pt 0 0 1].
Definition across_tri : tri pt := Tri (Pt (1/2) (1/4) (1/2)) (Pt (3/2) (1/4) (1/2)) (Pt (1/2) (3/4) (1/2)).
Lemma across_ok : well_formed across /\ num_triangles across = 1%nat /\ visit_n across = Some [(across_tri, Pt 0 0 1)].
Proof. split; [split; [reflexivity | repeat constructor; cbn; lia]|]. split; reflexivity. Qed.
Lemma far_between d p i : (at_ d p <= 9/10)%R -> 1/10 <= at_ d p -> plane_tol < Rabs (at_ d p - (INR i + 3 / 10 ^ 13)).
Proof.
  intros A B. assert (Tp : plane_tol < / 100) by (unfold plane_tol, zerotol; lra). assert (O : 0 < 3 / 10 ^ 13 < / 100) by lra. set (o := 3 / 10 ^ 13) in *. clearbody o.
  destruct i as [|i]; [cbn [INR]; unfold Rabs; destruct (Rcase_abs _); lra|]. rewrite S_INR. assert (K := pos_INR i). unfold Rabs. destruct (Rcase_abs _); lra.
Qed.
Lemma across_between t p d : t = across_tri -> MeshGeoProofs.in_triangle t p -> d <> AX -> 1/10 <= at_ d p <= 9/10.
Proof.
  intros -> (u & v & w & U & V & W & S & ->) Nd. destruct d; [contradiction| |]; cbn [across_tri P1 P2 P3 at_ px py pz vadd vscale]; lra.
Qed.
Lemma axis_dec' (d : axis) : d = AX \/ d <> AX.
Proof. destruct d; [left; reflexivity | right; discriminate | right; discriminate]. Qed.
Lemma across_general : all_general two_cells [(across_tri, Pt 0 0 1)].
Proof.
  intros q [<-|[]]. cbn [fst]. destruct two_cells_planes as [Px Pd]. assert (Tp : plane_tol < / 100) by (unfold plane_tol, zerotol; lra).
  assert (Pa : forall d i, plane_at two_cells d i = INR i + 3 / 10 ^ 13) by (intros [| |] i; [apply Px | apply Pd; discriminate | apply Pd; discriminate]).
  assert (Ot : forall p d, MeshGeoProofs.in_triangle across_tri p -> d <> AX -> far (plane_at two_cells) (fun d => n_at d (gi_grid two_cells)) d p).
  { intros p d T Nd i Li. rewrite Pa. destruct (across_between _ p d eq_refl T Nd). apply far_between; lra. }
  assert (Cn : forall p, In p [P1 across_tri; P2 across_tri; P3 across_tri] -> MeshGeoProofs.in_triangle across_tri p).
  { intros p [<-|[<-|[<-|[]]]]; [exists 1, 0, 0 | exists 0, 1, 0 | exists 0, 0, 1]; (repeat split; try lra); apply pt_eq; intros [| |]; cbn [across_tri P1 P2 P3 at_ px py pz vadd vscale]; lra. }
  assert (Off : forall p d, MeshGeoProofs.in_triangle across_tri p -> on_plane (plane_at two_cells) (fun d => n_at d (gi_grid two_cells)) d p -> d = AX).
  { intros p d T (i & Li & E). destruct d; [reflexivity| |]; exfalso; [assert (F := Ot p AY T ltac:(discriminate) i Li) | assert (F := Ot p AZ T ltac:(discriminate) i Li)]; rewrite E, Rminus_diag_eq, Rabs_R0 in F by reflexivity; assert (K := tol_pos); lra. }
  split; [split; [|split]|].
  - intros p d I. destruct (axis_dec' d) as [-> | Nd]; [|apply Ot; [apply Cn, I | exact Nd]]. intros i Li. rewrite Pa. cbn [two_cells gi_grid n_at nx] in Li.
    assert (Ci : i = 0%nat \/ i = 1%nat \/ i = 2%nat) by lia. assert (O : 0 < 3 / 10 ^ 13 < / 100) by lra. set (o := 3 / 10 ^ 13) in *. clearbody o.
    destruct I as [<-|[<-|[<-|[]]]]; cbn [across_tri P1 P2 P3 at_ px]; destruct Ci as [-> | [-> | ->]]; cbn [INR]; unfold Rabs; destruct (Rcase_abs _); lra.
  - intros p d d' B O Nd. assert (T : MeshGeoProofs.in_triangle across_tri p).
    { destruct B as (a & b & s & Ia & Ib & Is & E). assert (Ep : p = vadd (vscale (1 - s) a) (vscale s b)) by (apply pt_eq; intros d0; rewrite E; destruct d0; reflexivity).
      destruct (Cn a Ia) as (u & v & w & U & V & W & S & Ea), (Cn b Ib) as (u' & v' & w' & U' & V' & W' & S' & Eb).
      exists ((1 - s) * u + s * u'), ((1 - s) * v + s * v'), ((1 - s) * w + s * w'). repeat split; try nra. rewrite Ep, Ea, Eb. apply pt_eq; intros [| |]; cbn [at_ px py pz vadd vscale]; ring. }
    assert (d = AX) as -> by (apply (Off p d T O)). apply Ot; [exact T | exact Nd].
  - intros p d d' d'' T O O' N _ _. exfalso. apply N. rewrite (Off p d T O), (Off p d' T O'). reflexivity.
  - intros p d I. rewrite !Pa. assert (O : 0 < 3 / 10 ^ 13 < / 100) by lra. set (o := 3 / 10 ^ 13) in *. clearbody o.
    destruct I as [<-|[<-|[<-|[]]]]; destruct d; cbn [across_tri two_cells gi_grid n_at nx ny nz INR P1 P2 P3 at_ px py pz]; lra.
Qed.
(** Two schedules of the example; its condition has a segment for each of the two cells, and one of them has an element. *)
Example C55_example : valid_condition two_cells across /\ schedule two_cells across [[0%nat]] [[1%nat]; [0%nat]] [1%nat; 0%nat] /\ schedule two_cells across [[]; [0%nat]] [[0%nat; 1%nat]] [0%nat; 1%nat] /\
  visit_n across = Some [(across_tri, Pt 0 0 1)] /\ all_general two_cells [(across_tri, Pt 0 0 1)] /\
  forall junk, exists c s s', compute_condition junk across two_cells (run [Ev true 2 (Some 7%nat)]) [[0%nat]] [[1%nat]; [0%nat]] [1%nat; 0%nat] = Some c /\
    In s (co_segments c) /\ s_index s = 0%nat /\ s_element s = None /\ In s' (co_segments c) /\ s_index s' = 1%nat /\ s_element s' = Some (true, Elem 2 7%nat).
Proof.
  destruct across_ok as (W & N & V). assert (ok := two_cells_valid across W N). split; [exact ok|].
  assert (Sc : schedule two_cells across [[0%nat]] [[1%nat]; [0%nat]] [1%nat; 0%nat]) by (refine (conj _ (conj _ _)); [apply Permutation_refl | apply perm_swap | apply perm_swap]). split; [exact Sc|].
  split; [refine (conj _ (conj _ _)); apply Permutation_refl|]. split; [exact V|]. split; [exact across_general|]. intros junk.
  destruct (run_condition junk across two_cells [Ev true 2 (Some 7%nat)] _ _ _ ok Sc) as (g & L & os & _ & _ & _ & _ & E). eexists.
  destruct (segments_cover junk across two_cells _ _ _ _ _ _ ok Sc E V) as [_ Cv]. destruct (segments_attached junk across two_cells _ _ _ _ _ ok Sc E) as [_ At]. destruct two_cells_planes as [Px Pd].
  assert (C0 : cell two_cells 0 (Pt (plane_at two_cells AX 0) (plane_at two_cells AY 0) (plane_at two_cells AZ 0)) (Pt (plane_at two_cells AX 1) (plane_at two_cells AY 1) (plane_at two_cells AZ 1))).
  { exists 0%nat, 0%nat, 0%nat. cbn [two_cells gi_grid nx ny nz]. repeat split; lia. }
  assert (C1 : cell two_cells 1 (Pt (plane_at two_cells AX 1) (plane_at two_cells AY 0) (plane_at two_cells AZ 0)) (Pt (plane_at two_cells AX 2) (plane_at two_cells AY 1) (plane_at two_cells AZ 1))).
  { exists 1%nat, 0%nat, 0%nat. cbn [two_cells gi_grid nx ny nz]. repeat split; lia. }
  assert (Tp : plane_tol < / 100) by (unfold plane_tol, zerotol; lra). assert (Tq := tol_pos). assert (O : 0 < 3 / 10 ^ 13 < / 100) by lra.
  destruct (Cv _ _ _ _ (Pt (5/8) (3/8) (1/2)) C0 (or_introl eq_refl)) as (s & q & Is & Ei & _).
  { exists (5/8), (1/8), (1/4). repeat split; try lra. apply pt_eq; intros [| |]; cbn [fst across_tri P1 P2 P3 at_ px py pz vadd vscale]; lra. }
  { intros [| |]; cbn [at_ px py pz]; rewrite ?Px, ?Pd by discriminate; cbn [INR]; lra. }
  destruct (Cv _ _ _ _ (Pt (11/8) (9/32) (1/2)) C1 (or_introl eq_refl)) as (s' & q' & Is' & Ei' & _).
  { exists (1/16), (7/8), (1/16). repeat split; try lra. apply pt_eq; intros [| |]; cbn [fst across_tri P1 P2 P3 at_ px py pz vadd vscale]; lra. }
  { intros [| |]; cbn [at_ px py pz]; rewrite ?Px, ?Pd by discriminate; cbn [INR]; lra. }
  exists s, s'. split; [exact E|]. split; [exact Is|]. split; [exact Ei|]. destruct (At s Is) as (_ & _ & _ & El). destruct (At s' Is') as (_ & _ & _ & El'). rewrite Ei in El. rewrite Ei' in El'.
  split; [rewrite El; reflexivity|]. split; [exact Is'|]. split; [exact Ei'|]. rewrite El'. reflexivity.
Qed.
