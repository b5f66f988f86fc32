(** Geometry of the domain of a trimmed element. *)
From Coq Require Import Reals List Arith NArith ZArith Bool Lia Lra Permutation.
From Verif Require Import Geo MappingModel TrimmedQuadModel MeshModel MeshProofs MeshGeoModel MeshGeoProofs MeshSumProofs MeshProps ClipModel SearchModel GeoQueryModel GeoQueryProofs SatMain ClipMeshProofs ClipResult ClipProps ClipCells DomainModel DomainProps ContourModel ContourProofs ContourProps ConditionProofs TrimSearchModel TrimSearchSpec.
Import ListNotations.
Local Open Scope R_scope.

Lemma snap_ge lo hi : / 10 ^ 12 <= snap_of lo hi.
Proof. apply Rmax_r. Qed.
Lemma snap_pos lo hi : 0 < snap_of lo hi.
Proof. assert (H := snap_ge lo hi). assert (0 < / 10 ^ 12) by (apply Rinv_0_lt_compat, pow_lt; lra). lra. Qed.
Lemma plane_tol_snap lo hi : plane_tol <= / 10 * snap_of lo hi.
Proof. assert (H := snap_ge lo hi). unfold plane_tol, zerotol. replace (10 * / 10 ^ 14) with (/ 10 * / 10 ^ 12) by field. lra. Qed.

(** A point is in the box, up to a distance. *)
Definition in_grown (lo hi : pt) (dl : R) (p : pt) : Prop := forall i, at_ i lo - dl <= at_ i p <= at_ i hi + dl.
Definition wide (lo hi : pt) : Prop := forall i, at_ i lo + / 10 * snap_of lo hi <= at_ i hi - / 10 * snap_of lo hi.

Lemma grown_mix lo hi dl p q s : in_grown lo hi dl p -> in_grown lo hi dl q -> 0 <= s <= 1 -> in_grown lo hi dl (vadd (vscale (1 - s) p) (vscale s q)).
Proof.
  intros P Q S i. specialize (P i). specialize (Q i). assert (E : at_ i (vadd (vscale (1 - s) p) (vscale s q)) = (1 - s) * at_ i p + s * at_ i q) by (destruct i; reflexivity). rewrite E. nra.
Qed.
Lemma grown_triangle lo hi dl t x : (forall c, In c (corners_of t) -> in_grown lo hi dl c) -> MeshGeoProofs.in_triangle t x -> in_grown lo hi dl x.
Proof.
  intros H (a & b & c & A & B & C & S & ->) i. assert (H1 := H (P1 t) (or_introl eq_refl) i). assert (H2 := H (P2 t) (or_intror (or_introl eq_refl)) i). assert (H3 := H (P3 t) (or_intror (or_intror (or_introl eq_refl))) i).
  assert (E : at_ i (vadd (vadd (vscale a (P1 t)) (vscale b (P2 t))) (vscale c (P3 t))) = a * at_ i (P1 t) + b * at_ i (P2 t) + c * at_ i (P3 t)) by (destruct i; reflexivity). rewrite E. nra.
Qed.
Lemma fold_vadd i l : forall acc, at_ i (fold_left (fun acc v => vadd acc (c_pos v)) l acc) = at_ i acc + sum (fun v => at_ i (c_pos v)) l.
Proof. induction l as [|v l IH]; intros acc; cbn [fold_left sum]; [lra|]. rewrite IH. assert (E : at_ i (vadd acc (c_pos v)) = at_ i acc + at_ i (c_pos v)) by (destruct i; reflexivity). rewrite E. lra. Qed.
Lemma sum_bounds {A} (f : A -> R) a b l : (forall x, In x l -> a <= f x <= b) -> INR (length l) * a <= sum f l <= INR (length l) * b.
Proof.
  induction l as [|x l IH]; intros H; cbn [sum length]; [cbn; lra|]. rewrite S_INR. assert (H1 := H x (or_introl eq_refl)). assert (H2 := IH (fun y I => H y (or_intror I))). lra.
Qed.
Lemma grown_centroid lo hi dl l : l <> [] -> (forall v, In v l -> in_grown lo hi dl (c_pos v)) -> in_grown lo hi dl (centroid l).
Proof.
  intros N H i. assert (L : 0 < INR (length l)) by (apply lt_0_INR; destruct l; [congruence|cbn; lia]).
  assert (E : at_ i (centroid l) = / INR (length l) * sum (fun v => at_ i (c_pos v)) l).
  { unfold centroid. assert (E1 : forall s p, at_ i (vscale s p) = s * at_ i p) by (intros; destruct i; reflexivity). rewrite E1, fold_vadd. unfold Rdiv. rewrite Rmult_1_l. f_equal. destruct i; cbn; lra. }
  rewrite E. destruct (sum_bounds (fun v => at_ i (c_pos v)) (at_ i lo - dl) (at_ i hi + dl) l) as [B1 B2]; [intros v I; exact (H v I i)|].
  apply (Rmult_le_compat_l (/ INR (length l))) in B1; [|apply Rlt_le, Rinv_0_lt_compat, L]. apply (Rmult_le_compat_l (/ INR (length l))) in B2; [|apply Rlt_le, Rinv_0_lt_compat, L].
  rewrite <- Rmult_assoc, Rinv_l, Rmult_1_l in B1 by lra. rewrite <- Rmult_assoc, Rinv_l, Rmult_1_l in B2 by lra. split; assumption.
Qed.

(** *** The vertices of a clipped mesh *)
Section Vertices.
Variable P : pt -> Prop.
Definition all_vertices (m : cmesh) : Prop := Forall P (m_vertices (cm_mesh m)).
Lemma three_vertices a b c n m : all_vertices m -> P a -> P b -> P c -> all_vertices (add_three a b c n m).
Proof. intros H A B C. unfold all_vertices. rewrite three_mesh. cbn [m_vertices]. apply Forall_app. split; [exact H|]. repeat constructor; assumption. Qed.
Lemma fold_mesh {A} (f : cmesh -> A -> cmesh) l : (forall m k, cm_mesh (f m k) = cm_mesh m) -> forall m, cm_mesh (fold_left f l m) = cm_mesh m.
Proof. intros H. induction l as [|k l IH]; intros m; [reflexivity|]. cbn [fold_left]. rewrite IH, H. reflexivity. Qed.
Lemma fan_vertices z n a b m : all_vertices m -> P (c_pos a) -> P (c_pos b) -> P z -> all_vertices (add_fan z n a b m).
Proof.
  intros H A B Z. unfold all_vertices, add_fan. rewrite fold_mesh; [apply three_vertices; assumption|]. intros m' k. destruct (_ && _); reflexivity.
Qed.
Lemma fans_vertices z n l : forall a m, all_vertices m -> P (c_pos a) -> Forall (fun v => P (c_pos v)) l -> P z -> all_vertices (add_fans z n a l m).
Proof. induction l as [|b l IH]; intros a m H A F Z; cbn [add_fans]; [exact H|]. inversion F; subst. apply IH; auto. apply fan_vertices; auto. Qed.
Lemma tri_edges_mesh va vb vc nv nt l : forall o m', fold_left (tri_edges va vb vc nv nt) l o = Some m' -> exists m, o = Some m /\ cm_mesh m' = cm_mesh m.
Proof.
  induction l as [|k l IH]; intros o m' E; cbn [fold_left] in E; [exists m'; auto|]. destruct (IH _ _ E) as (m1 & E1 & M1). unfold tri_edges, and_then in E1. destruct o as [m|]; [|discriminate].
  exists m. split; [reflexivity|]. rewrite M1. destruct (_ && _); [discriminate|]. injection E1 as <-. destruct (_ && _); [reflexivity|]. destruct (_ && _); [reflexivity|]. destruct (_ && _); reflexivity.
Qed.
Lemma polygon_vertices p m m' : all_vertices m -> Forall (fun v => P (c_pos v)) (p_vertices p) -> (p_vertices p <> [] -> P (centroid (p_vertices p))) -> add_to_mesh p m = Some m' -> all_vertices m'.
Proof.
  intros H F Z E. unfold add_to_mesh in E. destruct (p_vertices p) as [|a [|b [|c l]]]; try (injection E as <-; exact H).
  inversion F as [|? ? Fa F1]; subst. inversion F1 as [|? ? Fb F2]; subst. inversion F2 as [|? ? Fc F3]; subst.
  destruct l as [|d l].
  - apply tri_edges_mesh in E as (m1 & [= <-] & M). unfold all_vertices. rewrite M. apply three_vertices; assumption.
  - injection E as <-. assert (Zc := Z ltac:(discriminate)). apply fan_vertices; [exact (fans_vertices _ _ (b :: c :: d :: l) a m H Fa F1 Zc)| |exact Fa|exact Zc].
    assert (I : In (last (a :: b :: c :: d :: l) a) (a :: b :: c :: d :: l)). { clear. generalize (b :: c :: d :: l) as r. intros r. revert a. induction r as [|x r IH]; intros a; [left; reflexivity|]. change (In (last (x :: r) a) (a :: x :: r)). right. assert (X : last (x :: r) a = last (x :: r) x) by (clear; revert x; induction r as [|y r IH]; intros x; [reflexivity|]; change (last (y :: r) a = last (y :: r) x); clear IH; revert y; induction r as [|z r IH]; intros y; [reflexivity|]; exact (IH z)). rewrite X. apply IH. }
    rewrite Forall_forall in F. exact (F _ I).
Qed.
End Vertices.

Section Domain.
Variable src : mesh pt.
Variable g : gquery.
Variable junk : nat -> node RA.
Variable L : list (tri pt * pt).
Variable lookup : plane -> list point2 -> point2 -> option nat.
Variable sort_points : list point2 -> list point2.
Variable sort_edges : list point2 -> list (edge2 * bool) -> list (edge2 * bool).
Variable inside : cmesh -> R -> pt -> bool.
Hypothesis Wf : well_formed src.
Hypothesis VL : visit_n src = Some L.
Hypothesis Ne : L <> [].
Hypothesis Nt : (Z.of_nat (length L) <= 2 ^ 30)%Z.
Hypothesis Eg : make_query junk (map fst L) true = Some g.
Hypothesis Sp : permutes sort_points.
Hypothesis Se : forall vs, permutes (sort_edges vs).

Lemma L_len : length L = num_triangles src.
Proof. apply visit_seq in VL. apply VL. Qed.

(** The triangle meets the box. *)
Definition meets (lo hi : pt) (t : tri pt) : Prop := exists x, MeshGeoProofs.in_triangle t x /\ in_box lo hi (/ 10 * snap_of lo hi) x.
Definition clip_result (lo hi : pt) (m : cmesh) : Prop := exists r, cm_ok m /\ visit_n (cm_mesh m) = Some r /\
  (forall s, In s r -> exists q, In q L /\ meets lo hi (fst q) /\ snd s = snd q /\ piece_of (fst s) (fst q) /\ forall c, In c (corners_of (fst s)) -> in_grown lo hi plane_tol c) /\
  (forall q x, In q L -> MeshGeoProofs.in_triangle (fst q) x -> (forall d, at_ d lo + / 10 * snap_of lo hi < at_ d x < at_ d hi - / 10 * snap_of lo hi) ->
     exists s, In s r /\ MeshGeoProofs.in_triangle (fst s) x /\ snd s = snd q) /\
  Forall (in_grown lo hi plane_tol) (m_vertices (cm_mesh m)) /\
  forall k, (k < 6)%nat -> exists es, all_of (edges_on m k) = Some es /\ forall e, In e es -> in_grown lo hi plane_tol (fst (fst e)) /\ in_grown lo hi plane_tol (snd (fst e)).

Lemma all_of_ok {A} (l : list (option A)) : (forall x, In x l -> x <> None) -> exists r, all_of l = Some r /\ l = map Some r.
Proof.
  induction l as [|x l IH]; intros H; [exists []; auto|]. destruct x as [a|]; [|destruct (H None (or_introl eq_refl) eq_refl)]. destruct IH as (r & E & ->); [intros y I; apply H; right; exact I|].
  exists (a :: r). cbn [all_of and_then]. rewrite E. auto.
Qed.
Lemma all_of_some {A} (l : list (option A)) : forall r, all_of l = Some r -> l = map Some r.
Proof.
  induction l as [|x l IH]; intros r E; cbn [all_of] in E; [injection E as <-; reflexivity|]. destruct x as [a|]; [|discriminate]. cbn [and_then] in E. destruct (all_of l) as [r'|]; [|discriminate]. injection E as <-. cbn [map]. f_equal. apply IH. reflexivity.
Qed.

Lemma clip_fold_vertices lo hi (ql : list (tri pt * pt)) : (forall q, In q ql -> meets lo hi (fst q)) -> forall m m', all_vertices (in_grown lo hi plane_tol) m ->
  fold_left (fun m q => and_then m (clip_one lo hi q)) ql (Some m) = Some m' -> all_vertices (in_grown lo hi plane_tol) m'.
Proof.
  induction ql as [|q ql IH]; intros Mt m m' H E; cbn [fold_left] in E; [injection E as <-; exact H|]. cbn [and_then] in E.
  destruct (clip_one lo hi q m) as [m1|] eqn:E1.
  2:{ exfalso. clear - E. induction ql as [|a ql IH]; cbn [fold_left and_then] in E; [discriminate|auto]. }
  apply (IH (fun x I => Mt x (or_intror I)) m1 m'); [|exact E]. clear IH E. unfold clip_one in E1. destruct (clip_triangle (fst q) (snd q) lo hi) as [[p|]|] eqn:Cl; [|injection E1 as <-; exact H|discriminate].
  destruct (Mt q (or_introl eq_refl)) as (x & T & B). assert (Sn := snap_pos lo hi).
  assert (V : forall v, In v (p_vertices p) -> in_grown lo hi plane_tol (c_pos v)).
  { intros v I d. destruct (clip_within (fst q) (snd q) lo hi p (c_pos v) Cl) as [_ W]; [apply in_map, I|]. destruct (W d) as [W1 W2]. specialize (B d). split; [apply W1|apply W2].
    - apply (in_triangle_above (fst q) x d); [exact T|lra].
    - apply (in_triangle_below (fst q) x d); [exact T|lra]. }
  apply (polygon_vertices (in_grown lo hi plane_tol) p m m1 H); [apply Forall_forall; exact V| |exact E1]. intros N. apply grown_centroid; assumption.
Qed.
Lemma visit_listed i q : triangle_n src i = Some q <-> nth_error L i = Some q.
Proof.
  assert (H := proj1 (visit_seq _ _ _) VL). destruct H as [Ln F]. destruct (lt_dec i (num_triangles src)) as [I|I]; [rewrite (F i I); reflexivity|].
  split; intros E; exfalso.
  - unfold triangle_n in E. rewrite triangle_out in E by lia. discriminate.
  - apply I. rewrite <- Ln. apply nth_error_Some. congruence.
Qed.
Lemma clip_cell_ok lo hi : wide lo hi -> exists m, clip_cell src g lo hi = Some m /\ clip_result lo hi m.
Proof.
  intros W. assert (Sn := snap_pos lo hi).
  destruct (intersected_ids_ok junk (map fst L) true g lo hi (/ 10 * snap_of lo hi)) as (ids & E & N & H0); [rewrite map_length; exact Nt|destruct L; [congruence|discriminate]|exact Eg|lra|exact W|].
  assert (H : forall j, In j ids <-> exists q x, nth_error L j = Some q /\ MeshGeoProofs.in_triangle (fst q) x /\ in_box lo hi (/ 10 * snap_of lo hi) x).
  { intros j. rewrite H0. split.
    + intros (q & x & Q & T & B). rewrite nth_error_map in Q. destruct (nth_error L j) as [q'|]; [|discriminate]. injection Q as <-. exists q', x. split; [reflexivity|]. split; [apply in_triangle_same, T | exact B].
    + intros (q & x & Q & T & B). exists (fst q), x. split; [rewrite nth_error_map, Q; reflexivity|]. split; [apply in_triangle_same, T | exact B]. }
  clear H0. destruct (clip_mesh_ok src ids lo hi Wf) as (l & m & news & El & Em & Om & Vm & Cm & Ed).
  { intros j J. apply H in J as (q & x & Q & _). rewrite <- L_len. apply nth_error_Some. congruence. }
  exists m. split; [unfold clip_cell; rewrite E; exact Em|].
  assert (Mt : forall q, In q l -> In q L /\ meets lo hi (fst q)).
  { intros q I. destruct (visit_in _ _ _ _ El I) as (j & Ij & Ej). apply visit_listed in Ej. apply H in Ij as (q' & x & Q & T & B). assert (q' = q) as -> by congruence. split; [apply nth_error_In in Ej; exact Ej|]. exists x. split; assumption. }
  assert (Vx : Forall (in_grown lo hi plane_tol) (m_vertices (cm_mesh m))).
  { unfold clip_mesh in Em. rewrite El in Em. cbn [and_then] in Em. destruct (fold_left _ l (Some empty_cmesh)) as [m1|] eqn:Ef; [|discriminate]. cbn [and_then] in Em.
    assert (m1 = m) as ->. { destruct (0 <? num_triangles (cm_mesh m1))%nat; [destruct (check (cm_mesh m1)); [|discriminate]|]; injection Em as <-; reflexivity. }
    apply (clip_fold_vertices lo hi l (fun q I => proj2 (Mt q I)) empty_cmesh m); [constructor|exact Ef]. }
  exists (concat news). split; [exact Om|]. split; [exact Vm|]. split; [|split; [|split; [exact Vx|]]].
  - intros s I. apply in_concat in I as (new & J & I).
    assert (G : forall l news, Forall2 (clipped_into lo hi) l news -> forall new, In new news -> exists q, In q l /\ clipped_into lo hi q new).
    { clear. intros l news F. induction F as [|q n0 l0 nn C0 F IH]; intros new I; [destruct I|]. destruct I as [<-|I]; [exists q; split; [left; reflexivity | exact C0]|]. destruct (IH new I) as (q' & Iq & Cq). exists q'. split; [right; exact Iq | exact Cq]. }
    destruct (G _ _ Cm new J) as (q & Iq & Cq). destruct (Mt q Iq) as [IL (x & T & B)]. destruct Cq as (C1 & C2 & _ & _). destruct (C1 s I) as [S1 S2]. exists q. split; [exact IL|]. split; [exists x; split; assumption|]. split; [exact S1|]. split; [exact S2|].
    intros c Ic d. destruct (C2 s c d I Ic) as [B1 B2]. specialize (B d). split; [apply B1 | apply B2].
    + apply (in_triangle_above (fst q) x d); [exact T | lra].
    + apply (in_triangle_below (fst q) x d); [exact T | lra].
  - intros q x Iq T S. apply In_nth_error in Iq as [j Ej]. assert (Pt := plane_tol_snap lo hi). assert (Ij : In j ids).
    { apply H. exists q, x. split; [exact Ej|]. split; [exact T|]. intros d. specialize (S d). lra. }
    destruct (in_visit _ _ _ _ El Ij) as (q' & Q & Iq). apply visit_listed in Q. assert (q' = q) as -> by congruence.
    assert (G : forall l news, Forall2 (clipped_into lo hi) l news -> In q l -> exists new, In new news /\ clipped_into lo hi q new).
    { clear. intros l news F. induction F as [|q0 n0 l0 nn C0 F IH]; intros I; [destruct I|]. destruct I as [<-|I]; [exists n0; split; [left; reflexivity | exact C0]|]. destruct (IH I) as (new & In' & Cn). exists new. split; [right; exact In' | exact Cn]. }
    destruct (G _ _ Cm Iq) as (new & In' & C1 & _ & _ & Cv). destruct (Cv x T) as (s & Is & X). { intros d. specialize (S d). lra. }
    exists s. split; [apply in_concat; exists new; split; assumption|]. split; [exact X | apply C1, Is].
  - intros k K. specialize (Ed k K). rewrite Forall_forall in Ed. destruct (all_of_ok (edges_on m k)) as (es & E1 & E2).
    { intros x I -> . destruct (Ed None I) as (a & b & n & t & f & [=] & _). }
    exists es. split; [exact E1|]. intros e I. assert (I' : In (Some e) (edges_on m k)) by (rewrite E2; apply in_map, I). rewrite edges_on_val in I'. apply in_map_iff in I' as (ed & V & _). unfold edge_val in V.
    destruct (nth_error (m_vertices (cm_mesh m)) (e_v1 ed)) as [a|] eqn:A1; [|discriminate]. destruct (nth_error (m_vertices (cm_mesh m)) (e_v2 ed)) as [b|] eqn:B1; [|discriminate].
    destruct (nth_error (m_normals (cm_mesh m)) (e_normal ed)) as [n|]; [|discriminate]. injection V as <-. cbn [fst snd]. rewrite Forall_forall in Vx. split; apply Vx; eapply nth_error_In; eassumption.
Qed.

(** *** The closed mesh *)
(** A triangle on a face of the box with the normal of this face. *)
Definition on_side (lo hi : pt) (q : tri pt * pt) : Prop := exists (a : axis) (upper : bool),
  snd q = set_at a (if upper then 1 else -1) (Pt 0 0 0) /\ forall c, In c (corners_of (fst q)) -> at_ a c = at_ a (if upper then hi else lo).
Definition of_geometry (q : tri pt * pt) : Prop := exists q0, In q0 L /\ snd q = snd q0 /\ forall c, In c (corners_of (fst q)) -> MeshGeoProofs.in_triangle (fst q0) c.

Lemma face_ok m lo hi sw f x : clip_result lo hi m -> (forall i, at_ i lo <= at_ i hi) -> In f six_faces ->
  face_of lookup sort_points sort_edges inside m lo hi sw f = Some x ->
  exists ts, well_formed x /\ visit_n x = Some ts /\ forall q, In q ts -> on_side lo hi q /\ forall c, In c (corners_of (fst q)) -> in_grown lo hi plane_tol c.
Proof.
  intros (r & _ & _ & _ & _ & _ & Ed) Box I E. unfold face_of in E. destruct (make_plane (fst f) (snd f) lo hi sw) as [pl|] eqn:Mp; [|discriminate]. cbn [and_then] in E.
  assert (K : (fst f * 2 + (if snd f then 1 else 0) < 6)%nat) by (repeat destruct I as [<-|I]; [..|destruct I]; cbn; lia).
  destruct (Ed _ K) as (es & Ee & In_). rewrite Ee in E. cbn [and_then] in E. destruct (face_mesh _ _ _ _ _ es) as [cm|] eqn:Fm; [|discriminate]. injection E as <-.
  destruct (C54_on_face (fst f) (snd f) lo hi sw pl (lookup pl) sort_points sort_edges (inside m (snap_of lo hi)) es cm plane_tol Mp Sp Se Box) as (Ok_ & ts & V & T).
  - unfold plane_tol. assert (X := zerotol_pos). lra.
  - intros e p Ie Hp a. destruct (In_ e Ie) as [A B]. destruct Hp as [-> | ->]; [apply A|apply B].
  - exact Fm.
  - exists (map (fun t => (t, set_at (match fst f with 0%nat => AX | 1%nat => AY | _ => AZ end) (if snd f then 1 else -1) (Pt 0 0 0))) ts).
    split; [apply Ok_|]. split; [exact V|]. intros q Iq. apply in_map_iff in Iq as (t & <- & It). cbn [fst snd]. split.
    + exists (match fst f with 0%nat => AX | 1%nat => AY | _ => AZ end), (snd f). split; [reflexivity|]. cbn [fst]. intros c Ic. apply (T t c It). destruct Ic as [<-|[<-|[<-|[]]]]; auto.
    + intros c Ic. exact (proj2 (T t c It ltac:(destruct Ic as [<-|[<-|[<-|[]]]]; auto))).
Qed.
Lemma append_all (P : tri pt * pt -> Prop) fs : forall m l, well_formed m -> visit_n m = Some l -> Forall (fun x => exists ts, well_formed x /\ visit_n x = Some ts /\ Forall P ts) fs ->
  exists c ts, fold_left (fun c f => and_then c (fun c => append c f)) fs (Some m) = Some c /\ well_formed c /\ visit_n c = Some (l ++ ts) /\ Forall P ts.
Proof.
  induction fs as [|f fs IH]; intros m l W V F; [exists m, []; rewrite app_nil_r; auto|]. inversion F as [|? ? (ts & Wf' & Vf & Pf) F']; subst. cbn [fold_left and_then].
  destruct (append_visit m f l ts W Wf' V Vf) as (m1 & E1 & W1 & V1). rewrite E1. destruct (IH m1 _ W1 V1 F') as (c & ts' & E & Wc & Vc & Pc).
  exists c, (ts ++ ts'). split; [exact E|]. split; [exact Wc|]. split; [rewrite Vc, app_assoc; reflexivity|]. apply Forall_app. auto.
Qed.
(** The triangles of the closed mesh: parts of the geometry with their normals, and triangles on the faces. *)
Definition domain_result (lo hi : pt) (min : nat) (d : domain) : Prop := exists r fs l,
  visit_n (cm_mesh (dm_clipped d)) = Some r /\ r <> [] /\ well_formed (dm_closed d) /\ visit_n (dm_closed d) = Some l /\ dm_snap d = snap_of lo hi /\
  Forall (on_side lo hi) fs /\ Forall of_geometry r /\
  (forall q, In q l -> (forall c, In c (corners_of (fst q)) -> in_grown lo hi plane_tol c) /\ (of_geometry q \/ on_side lo hi q)) /\
  sum (fun q => tri_area (fst q)) l = sum (fun q => tri_area (fst q)) r + sum (fun q => tri_area (fst q)) fs /\
  (length r + length fs <= length l)%nat /\ (INR min * zerotol <= sum (fun q => tri_area (fst q)) l -> (min <= length l)%nat).
Lemma make_domain_ok m lo hi min sw : clip_result lo hi m -> (forall i, at_ i lo <= at_ i hi) -> (0 < num_triangles (cm_mesh m))%nat ->
  (exists f, In f six_faces /\ face_of lookup sort_points sort_edges inside m lo hi sw f = None) \/
  exists d, make_domain lookup sort_points sort_edges inside m lo hi min sw = Some d /\ dm_clipped d = m /\ domain_result lo hi min d.
Proof.
  intros Cr Box N. unfold make_domain. destruct (num_triangles (cm_mesh m) =? 0)%nat eqn:E0; [apply Nat.eqb_eq in E0; lia|].
  destruct (all_of (map (face_of lookup sort_points sort_edges inside m lo hi sw) six_faces)) as [fs|] eqn:Ef.
  2:{ left. clear - Ef. revert Ef. generalize six_faces. induction l as [|f l IH]; intros E; [discriminate|]. cbn [map all_of] in E. destruct (face_of _ _ _ _ m lo hi sw f) as [x|] eqn:F; [|exists f; split; [left; reflexivity|exact F]].
      cbn [and_then] in E. destruct (all_of (map _ l)) as [r|]; [discriminate|]. destruct (IH eq_refl) as (f' & I & F'). exists f'. split; [right; exact I|exact F']. }
  right. cbn [and_then]. apply all_of_some in Ef.
  assert (Cr0 := Cr). destruct Cr as (r & Om & Vm & Pr & _ & Vx & Ed).
  destruct (append_all (fun q => on_side lo hi q /\ forall c, In c (corners_of (fst q)) -> in_grown lo hi plane_tol c) fs (cm_mesh m) r) as (c & ts & Ec & Wc & Vc & Pc).
  - apply Om.
  - exact Vm.
  - apply Forall_forall. intros x I. assert (I' : In (Some x) (map Some fs)) by (apply in_map, I). rewrite <- Ef in I'. apply in_map_iff in I' as (f & Fx & If).
    destruct (face_ok m lo hi sw f x Cr0 Box If Fx) as (ts & A & B & C). exists ts. split; [exact A|]. split; [exact B|]. apply Forall_forall. exact C.
  - rewrite Ec. cbn [and_then]. destruct (refine_keeps c min Wc) as (c' & Er & Wc' & _ & Ar & _ & _ & (l0 & l & V0 & V1 & Pt_) & Nc & Cn). rewrite Er.
    exists (Domain m c' (snap_of lo hi)). split; [reflexivity|]. split; [reflexivity|]. assert (l0 = r ++ ts) as -> by congruence.
    assert (Rn : r <> []). { intros ->. apply visit_seq in Vm. destruct Vm as [X _]. cbn in X. lia. }
    assert (Al : sum (fun q => tri_area (fst q)) l = sum (fun q => tri_area (fst q)) r + sum (fun q => tri_area (fst q)) ts).
    { rewrite (area_visit _ _ V1), (area_visit _ _ V0) in Ar. injection Ar as Ar. rewrite sum_app in Ar. exact Ar. }
    exists r, ts, l. cbn [dm_clipped dm_closed dm_snap]. split; [exact Vm|]. split; [exact Rn|]. split; [exact Wc'|]. split; [exact V1|]. split; [reflexivity|].
    split; [revert Pc; apply Forall_impl; tauto|]. split.
    { apply Forall_forall. intros s I. destruct (Pr s I) as (q & Iq & _ & Sn & Pc' & _). exists q. split; [exact Iq|]. split; [exact Sn|]. intros p Ip. destruct Pc' as (A & B & C & _). destruct Ip as [<-|[<-|[<-|[]]]]; assumption. }
    split; [|split; [exact Al|split]].
    + intros q Iq. destruct (Pt_ q Iq) as (q0 & I0 & (A & B & C & _) & Sn). assert (Cs : forall p, In p (corners_of (fst q)) -> MeshGeoProofs.in_triangle (fst q0) p) by (intros p [<-|[<-|[<-|[]]]]; assumption).
      apply in_app_or in I0 as [I0|I0].
      * destruct (Pr q0 I0) as (q1 & I1 & _ & Sn1 & Pc1 & Gr). split; [intros p Ip; apply (grown_triangle lo hi plane_tol (fst q0)); [exact Gr|apply Cs, Ip]|]. left. exists q1. split; [exact I1|]. split; [congruence|].
        intros p Ip. destruct (Cs p Ip) as (a & b & c0 & HA & HB & HC & HS & ->). destruct Pc1 as ((a1 & b1 & c1 & A1 & B1 & C1 & S1 & E1) & (a2 & b2 & c2 & A2 & B2 & C2 & S2 & E2) & (a3 & b3 & c3 & A3 & B3 & C3 & S3 & E3) & _).
        exists (a * a1 + b * a2 + c0 * a3), (a * b1 + b * b2 + c0 * b3), (a * c1 + b * c2 + c0 * c3). split; [nra|]. split; [nra|]. split; [nra|]. split.
        { replace (_ + _ + _) with (a * (a1 + b1 + c1) + b * (a2 + b2 + c2) + c0 * (a3 + b3 + c3)) by ring. rewrite S1, S2, S3. lra. }
        rewrite E1, E2, E3. unfold vadd, vscale. cbn [px py pz]. f_equal; ring.
      * rewrite Forall_forall in Pc. destruct (Pc q0 I0) as [(a & up & Nn & Hc) Gr]. split; [intros p Ip; apply (grown_triangle lo hi plane_tol (fst q0)); [exact Gr|apply Cs, Ip]|]. right. exists a, up. split; [congruence|].
        intros p Ip. destruct (Cs p Ip) as (x & y & z & HA & HB & HC & HS & ->). assert (E1 := Hc (P1 (fst q0)) (or_introl eq_refl)). assert (E2 := Hc (P2 (fst q0)) (or_intror (or_introl eq_refl))). assert (E3 := Hc (P3 (fst q0)) (or_intror (or_intror (or_introl eq_refl)))).
        assert (E : at_ a (vadd (vadd (vscale x (P1 (fst q0))) (vscale y (P2 (fst q0)))) (vscale z (P3 (fst q0)))) = x * at_ a (P1 (fst q0)) + y * at_ a (P2 (fst q0)) + z * at_ a (P3 (fst q0))) by (destruct a; reflexivity).
        rewrite E, E1, E2, E3. rewrite <- (Rmult_1_l (at_ a (if up then hi else lo))) at 4. rewrite <- HS. ring.
    + assert (L0 := proj1 (proj1 (visit_seq _ _ _) V0)). assert (L1 := proj1 (proj1 (visit_seq _ _ _) V1)). rewrite app_length in L0. lia.
    + intros X. assert (L1 := proj1 (proj1 (visit_seq _ _ _) V1)). rewrite L1. apply (Cn (sum (fun q => tri_area (fst q)) l)); [|exact X]. rewrite <- Ar. apply area_visit, V1.
Qed.
End Domain.
