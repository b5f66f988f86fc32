(** The section of a surface in a box: how many triangles it has, and the section of triangles inside the box. *)
From Coq Require Import Reals List Arith ZArith Bool Lia Lra Permutation.
From Verif Require Import Geo MappingModel TrimmedQuadModel MeshModel MeshProofs MeshGeoModel MeshGeoProofs MeshSumProofs MeshProps ClipModel SearchModel GeoQueryModel GeoQueryProofs SatMain ClipMeshProofs ClipResult ClipProps ConditionProofs TrimSearchModel TrimSearchGeo TrimSearchInside.
Import ListNotations.
Local Open Scope R_scope.

Notation tri_count m := (num_triangles (cm_mesh m)).
Lemma three_count a b c n m : tri_count (add_three a b c n m) = S (tri_count m).
Proof. unfold add_three, cm_add_triangle, cm_add_vertex, num_triangles. cbn [cm_mesh add_triangle add_vertex fst m_triangles]. rewrite app_length. cbn. lia. Qed.
Lemma fan_count z n a b m : tri_count (add_fan z n a b m) = S (tri_count m).
Proof.
  unfold add_fan. rewrite <- (three_count (c_pos a) (c_pos b) z n m). generalize (add_three (c_pos a) (c_pos b) z n m). generalize (num_vertices (cm_mesh m)) (tri_count m). intros nv nt.
  generalize (seq 0 6). intros l. induction l as [|k l IH]; intros m1; [reflexivity|]. cbn [fold_left]. rewrite IH. destruct (c_on a k && c_on b k); reflexivity.
Qed.
Lemma fans_count z n l : forall a m, tri_count (add_fans z n a l m) = (length l + tri_count m)%nat.
Proof. induction l as [|b l IH]; intros a m; [reflexivity|]. cbn [add_fans length]. rewrite IH, fan_count. lia. Qed.
Lemma edges_count va vb vc nv nt l : forall m m', fold_left (ClipModel.tri_edges va vb vc nv nt) l (Some m) = Some m' -> tri_count m' = tri_count m.
Proof.
  induction l as [|k l IH]; intros m m' E; cbn [fold_left] in E; [injection E as <-; reflexivity|]. unfold ClipModel.tri_edges at 2 in E. cbn [and_then] in E.
  destruct (c_on va k && c_on vb k && c_on vc k).
  - exfalso. assert (N : forall l, fold_left (ClipModel.tri_edges va vb vc nv nt) l None = None) by (clear; induction l as [|k l IH]; [reflexivity|exact IH]). rewrite N in E. discriminate.
  - rewrite (IH _ _ E). destruct (c_on va k && c_on vb k); [reflexivity|]. destruct (c_on vb k && c_on vc k); [reflexivity|]. destruct (c_on vc k && c_on va k); reflexivity.
Qed.
Lemma polygon_count p m m' : (length (p_vertices p) <= 9)%nat -> add_to_mesh p m = Some m' -> (tri_count m' <= tri_count m + 9)%nat.
Proof.
  intros Ln E. unfold add_to_mesh in E. destruct (p_vertices p) as [|a [|b [|c [|d l]]]]; try (injection E as <-; lia).
  - rewrite (edges_count _ _ _ _ _ _ _ _ E), three_count. lia.
  - cbv zeta in E. match type of E with Some ?x = Some ?y => assert (X : x = y) by congruence end. rewrite <- X, fan_count, fans_count. cbn [length] in *. lia.
Qed.
Lemma one_count lo hi q m m' : clip_one lo hi q m = Some m' -> (tri_count m' <= tri_count m + 9)%nat.
Proof.
  intros E. unfold clip_one in E. destruct (clip_safe (fst q) (snd q) lo hi) as (r & Er & H). rewrite Er in E. destruct r as [p|]; [|injection E as <-; lia].
  exact (polygon_count p m m' (proj1 (H p eq_refl)) E).
Qed.
Lemma fold_count lo hi l : forall m m', fold_left (fun m q => and_then m (clip_one lo hi q)) l (Some m) = Some m' -> (tri_count m' <= tri_count m + 9 * length l)%nat.
Proof.
  induction l as [|q l IH]; intros m m' E; cbn [fold_left] in E; [injection E as <-; lia|]. cbn [and_then] in E. destruct (clip_one lo hi q m) as [m1|] eqn:E1.
  - apply IH in E. apply one_count in E1. cbn [length]. lia.
  - exfalso. assert (N : forall l, fold_left (fun m q => and_then m (clip_one lo hi q)) l None = None) by (clear; induction l as [|k l IH]; [reflexivity|exact IH]). rewrite N in E. discriminate.
Qed.
Lemma mesh_fold src ids lo hi l m : visit_list (triangle_n src) ids = Some l -> clip_mesh src ids lo hi = Some m -> fold_left (fun m q => and_then m (clip_one lo hi q)) l (Some empty_cmesh) = Some m.
Proof.
  intros El Em. unfold clip_mesh in Em. rewrite El in Em. cbn [and_then] in Em. destruct (fold_left _ l (Some empty_cmesh)) as [m1|]; [|discriminate]. cbn [and_then] in Em.
  destruct (0 <? tri_count m1)%nat; [destruct (check (cm_mesh m1)); [|discriminate]|]; injection Em as <-; reflexivity.
Qed.

Section Sections.
Variable src : mesh pt.
Variable g : gquery.
Variable junk : nat -> node RA.
Variable L : list (tri pt * pt).
Hypothesis Wf : well_formed src.
Hypothesis VL : visit_n src = Some L.
Hypothesis Ne : L <> [].
Hypothesis Nt : (Z.of_nat (length L) <= 2 ^ 30)%Z.
Hypothesis Eg : make_query junk (map fst L) true = Some g.

Lemma section_count lo hi m : wide lo hi -> clip_cell src g lo hi = Some m -> (tri_count m <= 9 * length L)%nat.
Proof.
  intros W E. assert (Sn := snap_pos lo hi). unfold clip_cell in E.
  destruct (intersected_ids_ok junk (map fst L) true g lo hi (/ 10 * snap_of lo hi)) as (ids & Ei & N & H0); [rewrite map_length; exact Nt|destruct L; [congruence|discriminate]|exact Eg|lra|exact W|].
  rewrite Ei in E. cbn [and_then] in E. destruct (visit_list (triangle_n src) ids) as [l|] eqn:El; [|unfold clip_mesh in E; rewrite El in E; discriminate].
  assert (F := fold_count lo hi l _ _ (mesh_fold _ _ _ _ _ _ El E)). cbn in F.
  assert (Ll : length l = length ids) by (apply visit_list_some in El; apply (proj1 El)).
  assert (Li : (length ids <= length L)%nat).
  { rewrite <- (seq_length (length L) 0). apply NoDup_incl_length; [exact N|]. intros j J. apply H0 in J as (q & x & Q & _). apply in_seq. rewrite nth_error_map in Q. destruct (nth_error L j) eqn:F'; [|discriminate].
    assert (j < length L)%nat by (apply nth_error_Some; congruence). lia. }
  lia.
Qed.
(** Triangles inside the box are kept, triangles that do not meet it are dropped. *)
Lemma section_kept lo hi : wide lo hi ->
  (forall q, In q L -> (forall c, In c (corners_of (fst q)) -> in_box lo hi (/ 10 * snap_of lo hi) c /\ strictly_inside lo hi c) \/ forall x, MeshGeoProofs.in_triangle (fst q) x -> ~ in_box lo hi (/ 10 * snap_of lo hi) x) ->
  exists m l, clip_cell src g lo hi = Some m /\ visit_n (cm_mesh m) = Some l /\
    forall q, In q l <-> In q L /\ forall c, In c (corners_of (fst q)) -> in_box lo hi (/ 10 * snap_of lo hi) c.
Proof.
  intros W Ic. assert (Sn := snap_pos lo hi).
  assert (First : forall q : tri pt * pt, MeshGeoProofs.in_triangle (fst q) (P1 (fst q))).
  { intros q. exists 1, 0, 0. split; [lra|]. split; [lra|]. split; [lra|]. split; [lra|]. apply Geo.pt_eq. intros []; unfold vadd, vscale; cbn [at_ px py pz]; ring. }
  destruct (intersected_ids_ok junk (map fst L) true g lo hi (/ 10 * snap_of lo hi)) as (ids & E & N & H0); [rewrite map_length; exact Nt|destruct L; [congruence|discriminate]|exact Eg|lra|exact W|].
  assert (Hi : forall j, In j ids <-> exists q, nth_error L j = Some q /\ forall c, In c (corners_of (fst q)) -> in_box lo hi (/ 10 * snap_of lo hi) c).
  { intros j. rewrite H0. split.
    - intros (q & x & Q & T & B). rewrite nth_error_map in Q. destruct (nth_error L j) as [q'|] eqn:F; [|discriminate]. injection Q as <-. exists q'. split; [reflexivity|].
      destruct (Ic q' (nth_error_In _ _ F)) as [I|I]; [intros c J; apply (I c J)|]. apply in_triangle_same in T. destruct (I x T B).
    - intros (q & Q & B). exists (fst q), (P1 (fst q)). rewrite nth_error_map, Q. split; [reflexivity|]. split; [apply in_triangle_same, First | apply B; cbn; tauto]. }
  destruct (clip_mesh_ok src ids lo hi Wf) as (l & m & news & El & Em & Om & Vm & _).
  { intros j J. apply Hi in J as (q & Q & _). rewrite <- (L_len src L VL). apply nth_error_Some. congruence. }
  assert (Il : forall q, In q l <-> In q L /\ forall c, In c (corners_of (fst q)) -> in_box lo hi (/ 10 * snap_of lo hi) c).
  { intros q. split.
    - intros I. destruct (visit_in _ _ _ _ El I) as (j & Ij & Ej). apply (visit_listed src L VL) in Ej. apply Hi in Ij as (q' & Q & B). assert (q' = q) as -> by congruence. split; [exact (nth_error_In _ _ Ej) | exact B].
    - intros [I B]. apply In_nth_error in I as [j Ej]. assert (Ij : In j ids) by (apply Hi; exists q; auto). destruct (in_visit _ _ _ _ El Ij) as (q' & Q & Iq). apply (visit_listed src L VL) in Q. assert (q' = q) as -> by congruence. exact Iq. }
  destruct (clip_fold_inside lo hi l) with (m := empty_cmesh) (l := @nil (tri pt * pt)) as (m' & Ef & Om' & Ed & Vm').
  - intros q c Iq I. apply Il in Iq as [Iq B]. destruct (Ic q Iq) as [K|K]; [apply (K c I)|]. destruct (K _ (First q)). apply B. cbn. tauto.
  - split; [apply empty_wf | constructor].
  - reflexivity.
  - reflexivity.
  - exists m, l. split; [unfold clip_cell; rewrite E; exact Em|]. assert (m' = m) as -> by (apply mesh_fold with (l := l) in Em; [congruence|exact El]). split; [exact Vm' | exact Il].
Qed.
End Sections.
