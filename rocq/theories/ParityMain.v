(** The parity of the number of crossed triangles of a closed surface does not depend on the direction: main lemmas. *)
From Coq Require Import Reals List Arith Bool ZArith Permutation Lia Lra Psatz.
From Verif Require Import Geo MappingModel TrimmedQuadModel MeshModel MeshGeoModel MeshBoxProofs SatProofs GeoQueryProofs RayProofs ParitySign ParitySpec ParityGeo ParityDir.
Import ListNotations.
Local Open Scope R_scope.

Lemma near_generic tris p d L : avoids tris p d -> exists d1, generic L d1 /\ signed_count tris p d1 = signed_count tris p d.
Proof.
  intros A. destruct (generic_near L d) as (w & Hw).
  assert (S : small (fun e => forall q, In q tris -> seen p (moved d w e) q = seen p d q)) by (apply small_all; intros q Hq; apply (seen_stable tris); assumption).
  destruct (small_point _ (small_and _ _ Hw S)) as (e & _ & G & E). exists (moved d w e). split; [exact G|]. apply zsum_ext. exact E.
Qed.
Definition tri_corners (q : tri pt) : list pt := [P1 q; P2 q; P3 q].
Definition vertex_normals (tris : list (tri pt)) (p : pt) : list pt :=
  flat_map (fun x => [cross (vsub x p) (Pt 1 0 0); cross (vsub x p) (Pt 0 1 0); cross (vsub x p) (Pt 0 0 1)]) (flat_map tri_corners tris).
Lemma corner_off tris p q x : off_surface tris p -> In q tris -> In x (tri_corners q) -> vsub x p <> Pt 0 0 0.
Proof.
  intros O Hq Hx E. apply (O q Hq). apply pt_inv in E. vec. destruct E as (E1 & E2 & E3).
  assert (K : x = p) by (apply pt_ext; lra). subst x. destruct Hx as [Hx|[Hx|[Hx|[]]]]; rewrite <- Hx; [exists 1, 0, 0|exists 0, 1, 0|exists 0, 0, 1]; (repeat (split; [lra|])); intros i; ring.
Qed.
Lemma not_parallel tris p d q x : off_surface tris p -> generic (vertex_normals tris p) d -> In q tris -> In x (tri_corners q) -> cross (vsub x p) d <> Pt 0 0 0.
Proof.
  intros O G Hq Hx E. pose proof (corner_off tris p q x O Hq Hx) as N. set (a := vsub x p) in *.
  assert (I : forall n, In n [cross a (Pt 1 0 0); cross a (Pt 0 1 0); cross a (Pt 0 0 1)] -> In n (vertex_normals tris p)).
  { intros n Hn. unfold vertex_normals. apply in_flat_map. exists x. split; [apply in_flat_map; exists q; auto|exact Hn]. }
  assert (Z : forall e, dot (cross a e) d = 0). { intros e. replace (dot (cross a e) d) with (- dot e (cross a d)) by (vec; ring). rewrite E. vec. ring. }
  assert (C : forall e, In (cross a e) [cross a (Pt 1 0 0); cross a (Pt 0 1 0); cross a (Pt 0 0 1)] -> cross a e = Pt 0 0 0).
  { intros e He. destruct (pt_dec (cross a e) (Pt 0 0 0)) as [K|K]; [exact K|]. exfalso. apply (G _ (I _ He) K). apply Z. }
  assert (C1 := C (Pt 1 0 0) (or_introl eq_refl)). assert (C2 := C (Pt 0 1 0) (or_intror (or_introl eq_refl))).
  apply N. apply pt_inv in C1. apply pt_inv in C2. clearbody a. vec. apply pt_ext; cbn; lra.
Qed.
Lemma generic_app L L' d : generic (L ++ L') d <-> generic L d /\ generic L' d.
Proof.
  split.
  - intros H. split; intros n Hn; apply H; apply in_or_app; auto.
  - intros [H K] n Hn. apply in_app_or in Hn. destruct Hn; auto.
Qed.
Lemma generic_opp L d : generic L d -> generic L (opp d).
Proof. intros H n Hn Z E. apply (H n Hn Z). unfold opp in E. replace (dot n (vscale (-1) d)) with (- dot n d) in E by (vec; ring). lra. Qed.
Lemma opp_opp d : opp (opp d) = d.
Proof. unfold opp. vec. apply pt_ext; cbn; ring. Qed.

Lemma count_independent tris p d d' : closed tris -> off_surface tris p -> avoids tris p d -> avoids tris p d' -> signed_count tris p d = signed_count tris p d'.
Proof.
  intros C O A A'. destruct (near_generic tris p d (edge_normals tris p ++ vertex_normals tris p) A) as (d1 & G1 & E1). apply generic_app in G1. destruct G1 as [G1 V1].
  destruct (near_generic tris p d' (edge_normals tris p ++ map (fun x => cross (vsub x p) d1) (flat_map tri_corners tris)) A') as (d2 & G2 & E2). apply generic_app in G2. destruct G2 as [G2 V2].
  rewrite <- E1, <- E2. rewrite <- (opp_opp d2). apply signed_count_eq; try assumption; [apply generic_opp, G2|].
  intros q Hq. assert (K : forall x, In x (tri_corners q) -> det3 d1 (opp d2) (vsub x p) <> 0).
  { intros x Hx E. apply (V2 (cross (vsub x p) d1)).
    - apply in_map_iff. exists x. split; [reflexivity|]. apply in_flat_map. exists q. auto.
    - apply (not_parallel tris p d1 q x); assumption.
    - unfold opp in E. replace (dot (cross (vsub x p) d1) d2) with (- det3 d1 (vscale (-1) d2) (vsub x p)) by (vec; ring). lra. }
  split; [apply K; left; reflexivity|]. split; [apply K; right; left; reflexivity|apply K; right; right; left; reflexivity].
Qed.

(** *** Parity *)
Definition seenb (p d : pt) (q : tri pt) : bool := negb (seen p d q =? 0)%Z.
Lemma sig4_range w x y z : (sig4 w x y z = 0 \/ sig4 w x y z = 1 \/ sig4 w x y z = -1)%Z.
Proof. unfold sig4. repeat destruct (Rlt_dec _ _); lia. Qed.
Lemma odd_count tris p d : Z.odd (signed_count tris p d) = Nat.odd (length (List.filter (seenb p d) tris)).
Proof.
  unfold signed_count. induction tris as [|q l IH]; [reflexivity|]. cbn [zsum List.filter]. rewrite Z.odd_add, IH. unfold seenb at 2.
  destruct (sig4_range (det3 (vsub (P1 q) p) (vsub (P2 q) p) (vsub (P3 q) p)) (det3 d (vsub (P2 q) p) (vsub (P3 q) p)) (det3 (vsub (P1 q) p) d (vsub (P3 q) p)) (det3 (vsub (P1 q) p) (vsub (P2 q) p) d)) as [E|[E|E]];
    fold (cone (vsub (P1 q) p) (vsub (P2 q) p) (vsub (P3 q) p) d) in E; fold (seen p d q) in E; rewrite E; cbn [Z.eqb negb length].
  - cbn [Z.odd]. apply xorb_false_l.
  - rewrite Nat.odd_succ, <- Nat.negb_odd. reflexivity.
  - rewrite Nat.odd_succ, <- Nat.negb_odd. reflexivity.
Qed.
Definition seen_ids (tris : list (tri pt)) (p d : pt) : list nat :=
  List.filter (fun i => match nth_error tris i with Some q => seenb p d q | None => false end) (seq 0 (length tris)).
Lemma map_nth_all {A} (l : list A) : map (nth_error l) (seq 0 (length l)) = map Some l.
Proof.
  induction l as [|a l IH]; [reflexivity|]. cbn [length seq map nth_error]. f_equal. rewrite <- seq_shift, map_map. exact IH.
Qed.
Lemma filter_map_length {A B} (f : B -> bool) (g : A -> B) l : length (List.filter f (map g l)) = length (List.filter (fun a => f (g a)) l).
Proof. induction l as [|a l IH]; [reflexivity|]. cbn [map List.filter]. destruct (f (g a)); cbn [length]; rewrite IH; reflexivity. Qed.
Lemma seen_ids_length tris p d : length (seen_ids tris p d) = length (List.filter (seenb p d) tris).
Proof.
  unfold seen_ids. rewrite <- (filter_map_length (fun o => match o with Some q => seenb p d q | None => false end) (nth_error tris)), map_nth_all, filter_map_length. reflexivity.
Qed.
Lemma in_seen_ids tris p d i : avoids tris p d -> (In i (seen_ids tris p d) <-> exists q, nth_error tris i = Some q /\ pierces p d q).
Proof.
  intros A. unfold seen_ids. rewrite filter_In, in_seq. split.
  - intros [_ H]. destruct (nth_error tris i) as [q|] eqn:E; [|discriminate]. exists q. split; [reflexivity|]. apply (pierces_seen tris p d q A (nth_error_In _ _ E)).
    unfold seenb in H. apply negb_true_iff, Z.eqb_neq in H. exact H.
  - intros (q & E & P). split; [split; [lia|]; apply nth_error_Some; congruence|]. rewrite E. apply (pierces_seen tris p d q A (nth_error_In _ _ E)) in P.
    unfold seenb. apply negb_true_iff, Z.eqb_neq. exact P.
Qed.
Lemma odd_crossings_count tris p d : avoids tris p d -> (odd_crossings tris p d <-> Z.odd (signed_count tris p d) = true).
Proof.
  intros A. rewrite odd_count, <- seen_ids_length. assert (ND : NoDup (seen_ids tris p d)) by (apply NoDup_filter, seq_NoDup). split.
  - intros (ids & N & H & L). rewrite <- L. f_equal. apply Permutation_length. apply NoDup_Permutation; [exact ND|exact N|]. intros i. rewrite H. apply in_seen_ids, A.
  - intros L. exists (seen_ids tris p d). split; [exact ND|]. split; [intros i; apply in_seen_ids, A|exact L].
Qed.
(** An explicit list of the crossed triangles gives the parity. *)
Lemma odd_crossings_ids tris p d ids : NoDup ids -> (forall i, In i ids <-> exists q, nth_error tris i = Some q /\ pierces p d q) -> (odd_crossings tris p d <-> Nat.odd (length ids) = true).
Proof.
  intros N H. split.
  - intros (ids' & N' & H' & L). rewrite <- L. f_equal. apply Permutation_length, NoDup_Permutation; [exact N|exact N'|]. intros i. rewrite H, H'. tauto.
  - intros L. exists ids. auto.
Qed.

(** *** The results *)
Lemma same_parity tris p d d' : closed tris -> off_surface tris p -> avoids tris p d -> avoids tris p d' -> (odd_crossings tris p d <-> odd_crossings tris p d').
Proof. intros C O A A'. rewrite !odd_crossings_count by assumption. rewrite (count_independent tris p d d' C O A A'). reflexivity. Qed.
Lemma surrounded_iff tris p d : closed tris -> off_surface tris p -> avoids tris p d -> (surrounded tris p <-> odd_crossings tris p d).
Proof.
  intros C O A. split.
  - intros (d' & A' & H). apply (same_parity tris p d d'); assumption.
  - intros H. exists d. auto.
Qed.
(** There is always a ray that meets no edge. *)
Lemma generic_avoids tris p d : d <> Pt 0 0 0 -> off_surface tris p -> generic (edge_normals tris p ++ vertex_normals tris p) d -> avoids tris p d.
Proof.
  intros N O G. split; [exact N|]. intros q t u v Hq Ht (U & V & S & R) W. apply generic_app in G. destruct G as [G1 G2].
  destruct (Req_dec t 0) as [Z|Z].
  { apply (O q Hq). exists (1 - u - v), u, v. repeat (split; [lra|]). intros i. subst t. apply pt_inv in W. unfold walk, plane_point in W. vec. destruct i; cbn [at_]; lra. }
  assert (T : 0 < t) by lra. pose proof (point_combo p d q t u v T W) as K.
  assert (ED : forall x y k l, In (x, y) (tri_edges q) -> vadd (vscale k (vsub x p)) (vscale l (vsub y p)) <> d).
  { intros x y k l He E. assert (D : det3 d (vsub x p) (vsub y p) = 0) by (rewrite <- E; vec; ring). pose proof (generic_normal tris p d q x y G1 Hq He D) as Cr.
    assert (Hx : In x (tri_corners q)). { destruct He as [He|[He|[He|[]]]]; injection He as <- <-; cbn; auto. }
    assert (Hy : In y (tri_corners q)). { destruct He as [He|[He|[He|[]]]]; injection He as <- <-; cbn; auto. }
    apply (not_parallel tris p d q x O G2 Hq Hx). rewrite <- E. apply pt_inv in Cr. vec. destruct Cr as (C1 & C2 & C3). f_equal.
    - replace (_ - _) with (l * ((py x - py p) * (pz y - pz p) - (pz x - pz p) * (py y - py p))) by ring. rewrite C1. ring.
    - replace (_ - _) with (l * ((pz x - pz p) * (px y - px p) - (px x - px p) * (pz y - pz p))) by ring. rewrite C2. ring.
    - replace (_ - _) with (l * ((px x - px p) * (py y - py p) - (py x - py p) * (px y - px p))) by ring. rewrite C3. ring. }
  unfold combo in K. destruct R as [R|[R|R]].
  - apply (ED (P3 q) (P1 q) (v / t) ((1 - u - v) / t)); [right; right; left; reflexivity|]. rewrite <- K, R. vec. apply pt_ext; cbn; field; lra.
  - apply (ED (P1 q) (P2 q) ((1 - u - v) / t) (u / t)); [left; reflexivity|]. rewrite <- K, R. vec. apply pt_ext; cbn; field; lra.
  - apply (ED (P2 q) (P3 q) (u / t) (v / t)); [right; left; reflexivity|]. rewrite <- K. replace (1 - u - v) with 0 by lra. vec. apply pt_ext; cbn; field; lra.
Qed.
Lemma some_direction tris p : off_surface tris p -> exists d, avoids tris p d.
Proof.
  intros O. destruct (generic_exists (Pt 1 0 0 :: edge_normals tris p ++ vertex_normals tris p)) as (d & G). exists d. apply generic_avoids; [|exact O|].
  - intros E. apply (G (Pt 1 0 0)); [left; reflexivity|intros K; injection K; lra|]. rewrite E. vec. ring.
  - intros n Hn. apply G. right. exact Hn.
Qed.
