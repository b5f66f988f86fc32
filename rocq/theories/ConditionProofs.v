(** Proofs about the conditions. *)
From Coq Require Import Reals List Arith NArith ZArith Bool Lia Lra Permutation.
From Verif Require Import Geo MappingModel TrimmedQuadModel GridModel GridSpec GridProofs GridGeoModel GridGeoProofs GridStoreModel GridStoreSpec GridStoreProofs MeshModel MeshProofs MeshGeoModel MeshGeoProofs MeshBoxProofs MeshSumProofs ClipModel SearchModel GeoQueryModel GeoQueryProofs ClipTheory ClipPlane ClipArea ClipProofs ClipInv ClipMeshProofs ClipCover ClipResult ClipProps ClipAdd ClipGrid ClipCells ConditionModel.
Import ListNotations.
Local Open Scope R_scope.

(** *** Specification *)
(** The positions of the planes that divide the condition: those of the grid, moved by 30 times 1e-14. *)
Definition plane_at (gi : indexer) (d : axis) (i : nat) : R :=
  at_ d (lower (gi_xyz gi)) + (at_ d (upper (gi_xyz gi)) - at_ d (lower (gi_xyz gi))) / INR (n_at d (gi_grid gi)) * INR i + 3 / 10 ^ 13.
(** The cell with an index, numbered along x, then y, then z. *)
Definition cell (gi : indexer) (i : nat) (lo hi : pt) : Prop := exists x y z,
  (x < nx (gi_grid gi))%nat /\ (y < ny (gi_grid gi))%nat /\ (z < nz (gi_grid gi))%nat /\ i = (z * (ny (gi_grid gi) * nx (gi_grid gi)) + y * nx (gi_grid gi) + x)%nat /\
  lo = Pt (plane_at gi AX x) (plane_at gi AY y) (plane_at gi AZ z) /\ hi = Pt (plane_at gi AX (S x)) (plane_at gi AY (S y)) (plane_at gi AZ (S z)).
Definition valid_condition (gi : indexer) (src : mesh pt) : Prop :=
  grid_ok (gi_grid gi) /\ box_ok (gi_xyz gi) /\ (forall d, plane_tol < (at_ d (upper (gi_xyz gi)) - at_ d (lower (gi_xyz gi))) / INR (n_at d (gi_grid gi))) /\
  (N.of_nat (num_elements (gi_grid gi)) < 2 ^ 31)%N /\ well_formed src /\ (0 < num_triangles src)%nat /\ (Z.of_nat (num_triangles src) <= 2 ^ 30)%Z.
(** The schedules of the parallel loops. *)
Definition schedule (gi : indexer) (src : mesh pt) (area_chunks chunks : list (list nat)) (order : list nat) : Prop :=
  Permutation (concat area_chunks) (omp_indices src) /\ Permutation (concat chunks) (omp_cells gi) /\ Permutation order (omp_cells gi).

(** *** Lists and sums *)
Lemma sum_zero {A} (f : A -> R) l : (forall a, In a l -> f a = 0) -> sum f l = 0.
Proof. induction l as [|a l IH]; intros H; cbn [sum]; [reflexivity|]. rewrite H by (left; reflexivity). rewrite IH; [ring|]. intros b I. apply H. right; exact I. Qed.
Lemma sum_nonneg {A} (f : A -> R) l : (forall a, In a l -> 0 <= f a) -> 0 <= sum f l.
Proof. induction l as [|a l IH]; intros H; cbn [sum]; [lra|]. assert (0 <= f a) by (apply H; left; reflexivity). assert (0 <= sum f l) by (apply IH; intros b I; apply H; right; exact I). lra. Qed.
Lemma sum_le {A} (f g : A -> R) l : (forall a, In a l -> f a <= g a) -> sum f l <= sum g l.
Proof. induction l as [|a l IH]; intros H; cbn [sum]; [lra|]. assert (f a <= g a) by (apply H; left; reflexivity). assert (sum f l <= sum g l) by (apply IH; intros b I; apply H; right; exact I). lra. Qed.
Lemma sum_swap {A B} (f : A -> B -> R) la lb : sum (fun a => sum (fun b => f a b) lb) la = sum (fun b => sum (fun a => f a b) la) lb.
Proof.
  induction la as [|a la IH]; cbn [sum]; [symmetry; apply sum_zero; reflexivity|]. rewrite IH, <- sum_plus. reflexivity.
Qed.
Lemma sum_seq_shift (f : nat -> R) n : forall a, sum f (seq a n) = sum (fun i => f (a + i)%nat) (seq 0 n).
Proof.
  induction n as [|n IH]; intros a; [reflexivity|]. rewrite !seq_S, !sum_app, IH. reflexivity.
Qed.
Lemma sum_mul (f : nat -> R) a b : sum f (seq 0 (b * a)) = sum (fun q => sum (fun r => f (q * a + r)%nat) (seq 0 a)) (seq 0 b).
Proof.
  induction b as [|b IH]; [reflexivity|]. rewrite seq_S, sum_app, <- IH. cbn [sum Nat.add]. replace (S b * a)%nat with (b * a + a)%nat by lia. rewrite seq_app, sum_app, Rplus_0_r. f_equal.
  apply (sum_seq_shift f a (b * a)).
Qed.
Lemma sum_sub (f : nat -> R) ids n : NoDup ids -> (forall i, In i ids -> (i < n)%nat) -> (forall i, (i < n)%nat -> ~ In i ids -> f i = 0) -> sum f ids = sum f (seq 0 n).
Proof.
  intros N B Z. set (inb := fun i => if in_dec Nat.eq_dec i ids then true else false).
  assert (P : Permutation ids (List.filter inb (seq 0 n))).
  { apply NoDup_Permutation; [exact N | apply NoDup_filter, seq_NoDup|]. intros i. rewrite filter_In, in_seq. unfold inb. split.
    - intros I. specialize (B i I). destruct (in_dec Nat.eq_dec i ids); [split; [lia | reflexivity] | contradiction].
    - intros [_ E]. destruct (in_dec Nat.eq_dec i ids); [assumption | discriminate]. }
  rewrite (sum_perm f _ _ P). assert (G : forall l, (forall i, In i l -> (i < n)%nat) -> sum f (List.filter inb l) = sum f l).
  { induction l as [|i l IH]; intros H; [reflexivity|]. cbn [List.filter sum]. unfold inb at 1. destruct (in_dec Nat.eq_dec i ids) as [I|I].
    - cbn [sum]. rewrite IH; [reflexivity|]. intros j J. apply H. right; exact J.
    - rewrite IH by (intros j J; apply H; right; exact J). rewrite (Z i (H i (or_introl eq_refl)) I). ring. }
  apply G. intros i I. apply in_seq in I. lia.
Qed.
Definition at_or {A} (f : A -> R) (L : list A) (i : nat) : R := match nth_error L i with Some q => f q | None => 0 end.
Lemma sum_at_or {A} (f : A -> R) L : sum (at_or f L) (seq 0 (length L)) = sum f L.
Proof.
  induction L as [|q L IH]; [reflexivity|]. cbn [length seq sum]. rewrite <- seq_shift, sum_map. f_equal. exact IH.
Qed.
Lemma visit_in {A} (get : nat -> option A) l r a : visit_list get l = Some r -> In a r -> exists i, In i l /\ get i = Some a.
Proof.
  revert r. induction l as [|x l IH]; intros r E I; cbn [visit_list] in E; [injection E as <-; destruct I|].
  destruct (get x) as [b|] eqn:G; [|discriminate]. destruct (visit_list get l) as [r'|]; [|discriminate]. injection E as <-.
  destruct I as [<-|I]; [exists x; split; [left; reflexivity | exact G]|]. destruct (IH r' eq_refl I) as (i & I' & G'). exists i. split; [right; exact I' | exact G'].
Qed.
Lemma in_visit {A} (get : nat -> option A) l r i : visit_list get l = Some r -> In i l -> exists a, get i = Some a /\ In a r.
Proof.
  revert r. induction l as [|x l IH]; intros r E I; [destruct I|]. cbn [visit_list] in E. destruct (get x) as [b|] eqn:G; [|discriminate]. destruct (visit_list get l) as [r'|]; [|discriminate]. injection E as <-.
  destruct I as [<-|I]; [exists b; split; [exact G | left; reflexivity]|]. destruct (IH r' eq_refl I) as (a & G' & I'). exists a. split; [exact G' | right; exact I'].
Qed.
Lemma visit_sum {A} (get : nat -> option A) (f : A -> R) (F : nat -> R) l r : (forall i a, In i l -> get i = Some a -> f a = F i) -> visit_list get l = Some r -> sum f r = sum F l.
Proof.
  revert r. induction l as [|x l IH]; intros r H E; cbn [visit_list] in E; [injection E as <-; reflexivity|].
  destruct (get x) as [b|] eqn:G; [|discriminate]. destruct (visit_list get l) as [r'|]; [|discriminate]. injection E as <-. cbn [sum].
  rewrite (H x b (or_introl eq_refl) G), (IH r'); [reflexivity | | reflexivity]. intros i a I. apply H. right; exact I.
Qed.
Lemma visit_total {A} (get : nat -> option A) l : (forall i, In i l -> get i <> None) -> exists r, visit_list get l = Some r.
Proof.
  induction l as [|x l IH]; intros N; cbn [visit_list]; [eauto|]. destruct (get x) as [y|] eqn:E; [|exfalso; apply (N x); [left; reflexivity | exact E]].
  destruct IH as [r ->]; [intros i I; apply N; right; exact I|]. cbn. eauto.
Qed.
Lemma in_triangle_same q x : GeoQueryProofs.in_triangle q x <-> MeshGeoProofs.in_triangle q x.
Proof.
  split; intros (a & b & c & A & B & C & S & E); exists a, b, c; (split; [exact A|]); (split; [exact B|]); (split; [exact C|]); (split; [exact S|]).
  - apply pt_eq. intros d. rewrite E. destruct d; reflexivity.
  - intros d. rewrite E. destruct d; reflexivity.
Qed.

(** *** Cells *)
Section Cells.
Variable gi : indexer.
Hypotheses (Hg : grid_ok (gi_grid gi)) (Hb : box_ok (gi_xyz gi)).
Lemma offset_at d : at_ d unique_offset = 3 / 10 ^ 13.
Proof. unfold unique_offset, zerotol. destruct d; cbn [at_ px py pz]; field. Qed.
Lemma box_plane_lo i d : at_ d (vadd (lower (box_xyz gi i)) unique_offset) = plane_at gi d (c_at d (mat_of (gi_grid gi) i)).
Proof.
  assert (E : forall p q, at_ d (vadd p q) = at_ d p + at_ d q) by (intros p q; destruct d; reflexivity). rewrite E, offset_at. unfold box_xyz. rewrite cell_lower. unfold plane_at, delta.
  rewrite Rabs_pos_eq; [reflexivity|]. specialize (Hb d). lra.
Qed.
Lemma box_plane_hi i d : at_ d (vadd (upper (box_xyz gi i)) unique_offset) = plane_at gi d (S (c_at d (mat_of (gi_grid gi) i))).
Proof.
  assert (E : forall p q, at_ d (vadd p q) = at_ d p + at_ d q) by (intros p q; destruct d; reflexivity). rewrite E, offset_at. unfold box_xyz. rewrite cell_upper. unfold plane_at, delta.
  rewrite Rabs_pos_eq; [rewrite S_INR; ring|]. specialize (Hb d). lra.
Qed.
Lemma cell_iff i lo hi : cell gi i lo hi <-> (i < num_elements (gi_grid gi))%nat /\ lo = vadd (lower (box_xyz gi i)) unique_offset /\ hi = vadd (upper (box_xyz gi i)) unique_offset.
Proof.
  split.
  - intros (x & y & z & X & Y & Z & -> & -> & ->). change (z * (ny (gi_grid gi) * nx (gi_grid gi)) + y * nx (gi_grid gi) + x)%nat with (GridModel.vec_of (gi_grid gi) (C3 x y z)).
    assert (I : in_grid (gi_grid gi) (C3 x y z)) by (split; [exact X | split; [exact Y | exact Z]]). split; [apply vec_of_bound, I|]. split; apply pt_eq; intros d.
    + rewrite box_plane_lo, mat_of_vec_of by exact I. destruct d; reflexivity.
    + rewrite box_plane_hi, mat_of_vec_of by exact I. destruct d; reflexivity.
  - intros (L & -> & ->). destruct (mat_of_in_grid _ i Hg L) as (X & Y & Z). exists (cx (mat_of (gi_grid gi) i)), (cy (mat_of (gi_grid gi) i)), (cz (mat_of (gi_grid gi) i)).
    split; [exact X|]. split; [exact Y|]. split; [exact Z|]. split; [symmetry; apply (vec_of_mat_of (gi_grid gi) i Hg)|]. split; apply pt_eq; intros d.
    + rewrite box_plane_lo. destruct d; reflexivity.
    + rewrite box_plane_hi. destruct d; reflexivity.
Qed.
Lemma cell_exists i : (i < num_elements (gi_grid gi))%nat -> exists lo hi, cell gi i lo hi.
Proof. intros L. do 2 eexists. apply cell_iff. split; [exact L|]. split; reflexivity. Qed.
Lemma plane_step d i : plane_at gi d (S i) = plane_at gi d i + (at_ d (upper (gi_xyz gi)) - at_ d (lower (gi_xyz gi))) / INR (n_at d (gi_grid gi)).
Proof. unfold plane_at. rewrite S_INR. ring. Qed.
Lemma cell_width i lo hi d : cell gi i lo hi -> at_ d hi = at_ d lo + (at_ d (upper (gi_xyz gi)) - at_ d (lower (gi_xyz gi))) / INR (n_at d (gi_grid gi)).
Proof. intros (x & y & z & _ & _ & _ & _ & -> & ->). destruct d; cbn [at_ px py pz]; apply plane_step. Qed.
End Cells.

(** *** One cell *)
Section OneCell.
Variables (gi : indexer) (src : mesh pt) (junk : nat -> node RA) (g : gquery) (L : list (tri pt * pt)).
Hypothesis ok : valid_condition gi src.
Hypothesis VL : visit_n src = Some L.
Hypothesis Eg : make_query junk (map fst L) true = Some g.
Lemma L_length : length L = num_triangles src.
Proof. apply visit_seq in VL. apply VL. Qed.
Lemma L_nth i q : triangle_n src i = Some q <-> nth_error L i = Some q.
Proof.
  assert (H := proj1 (visit_seq _ _ _) VL). destruct H as [Ln F]. destruct (lt_dec i (num_triangles src)) as [I|I]; [rewrite (F i I); reflexivity|].
  split; intros E; exfalso.
  - unfold triangle_n in E. rewrite triangle_out in E by lia. discriminate.
  - apply I. rewrite <- Ln. apply nth_error_Some. congruence.
Qed.
Lemma cell_search i lo hi : cell gi i lo hi -> exists ids, intersected_ids g lo hi (1 * zerotol) = Some ids /\ NoDup ids /\
  forall j, In j ids <-> exists q x, nth_error L j = Some q /\ MeshGeoProofs.in_triangle (fst q) x /\ in_box lo hi zerotol x.
Proof.
  intros C. destruct ok as (Hg & Hb & Hw & Hn & Wf & Nz & Nt). assert (Z := zerotol_pos). rewrite Rmult_1_l.
  destruct (intersected_ids_ok junk (map fst L) true g lo hi zerotol) as (ids & E & N & H).
  - rewrite map_length, L_length. exact Nt.
  - intros F. apply (f_equal (@length _)) in F. rewrite map_length, L_length in F. cbn in F. lia.
  - exact Eg.
  - lra.
  - intros d. rewrite (cell_width gi i lo hi d C). specialize (Hw d). unfold plane_tol in Hw. lra.
  - exists ids. split; [exact E|]. split; [exact N|]. intros j. rewrite H. split.
    + intros (q & x & Q & T & B). rewrite nth_error_map in Q. destruct (nth_error L j) as [q'|]; [|discriminate]. injection Q as <-. exists q', x. split; [reflexivity|]. split; [apply in_triangle_same, T | exact B].
    + intros (q & x & Q & T & B). exists (fst q), x. split; [rewrite nth_error_map, Q; reflexivity|]. split; [apply in_triangle_same, T | exact B].
Qed.
Lemma cell_clip i lo hi : cell gi i lo hi -> exists ids l m news, intersected_ids g lo hi (1 * zerotol) = Some ids /\ NoDup ids /\
  (forall j, In j ids <-> exists q x, nth_error L j = Some q /\ MeshGeoProofs.in_triangle (fst q) x /\ in_box lo hi zerotol x) /\
  visit_list (triangle_n src) ids = Some l /\ clip_mesh src ids lo hi = Some m /\ cm_ok m /\ visit_n (cm_mesh m) = Some (concat news) /\ Forall2 (clipped_into lo hi) l news.
Proof.
  intros C. destruct (cell_search i lo hi C) as (ids & E & N & H). destruct ok as (Hg & Hb & Hw & Hn & Wf & Nz & Nt).
  destruct (clip_mesh_ok src ids lo hi Wf) as (l & m & news & El & Em & Om & Vm & Cm & _).
  - intros j J. apply H in J as (q & x & Q & _). rewrite <- L_length. apply nth_error_Some. congruence.
  - exists ids, l, m, news. split; [exact E|]. split; [exact N|]. split; [exact H|]. split; [exact El|]. split; [exact Em|]. split; [exact Om|]. split; [exact Vm | exact Cm].
Qed.
(** What a segment contains. *)
Definition holds (i : nat) (m : cmesh) : Prop := forall lo hi, cell gi i lo hi -> exists r, cm_ok m /\ visit_n (cm_mesh m) = Some r /\
  (forall s, In s r -> exists q, In q L /\ snd s = snd q /\ piece_of (fst s) (fst q) /\ (exists x, MeshGeoProofs.in_triangle (fst q) x /\ in_box lo hi zerotol x) /\
     forall c d, In c (corners_of (fst s)) -> at_ d lo - plane_tol <= at_ d c <= at_ d hi + plane_tol) /\
  (forall q x, In q L -> MeshGeoProofs.in_triangle (fst q) x -> strictly_inside lo hi x -> exists s, In s r /\ MeshGeoProofs.in_triangle (fst s) x /\ snd s = snd q).
Lemma cell_holds i : (i < num_elements (gi_grid gi))%nat -> exists m, clip_unique g src (lower (box_xyz gi i)) (upper (box_xyz gi i)) = Some m /\ holds i m.
Proof.
  intros Li. destruct ok as (Hg & Hb & Hw & Hn & Wf & Nz & Nt).
  assert (C : cell gi i (vadd (lower (box_xyz gi i)) unique_offset) (vadd (upper (box_xyz gi i)) unique_offset)) by (apply (cell_iff gi Hg Hb); split; [exact Li|]; split; reflexivity).
  destruct (cell_clip i _ _ C) as (ids & l & m & news & E & N & H & El & Em & Om & Vm & Cm). exists m. split; [unfold clip_unique; rewrite E; exact Em|].
  intros lo hi C'. apply (cell_iff gi Hg Hb) in C' as (_ & Elo & Ehi). rewrite <- Elo, <- Ehi in *. clear Elo Ehi. exists (concat news). split; [exact Om|]. split; [exact Vm|]. split.
  - intros s I. apply in_concat in I as (new & J & I).
    assert (G : forall l news, Forall2 (clipped_into lo hi) l news -> forall new, In new news -> exists q, In q l /\ clipped_into lo hi q new).
    { clear. intros l news F. induction F as [|q n0 l0 nn C0 F IH]; intros new I; [destruct I|]. destruct I as [<-|I]; [exists q; split; [left; reflexivity | exact C0]|]. destruct (IH new I) as (q' & Iq & Cq). exists q'. split; [right; exact Iq | exact Cq]. }
    destruct (G _ _ Cm new J) as (q & Iq & Cq). destruct (visit_in _ _ _ _ El Iq) as (j & Ij & Ej). apply L_nth in Ej. apply H in Ij as (q' & x & Q & T & B). assert (q' = q) as -> by congruence.
    destruct Cq as (C1 & C2 & _ & _). destruct (C1 s I) as [S1 S2]. exists q. split; [apply nth_error_In in Ej; exact Ej|]. split; [exact S1|]. split; [exact S2|]. split; [exists x; split; assumption|].
    intros c d Ic. destruct (C2 s c d I Ic) as [B1 B2]. assert (Z := zerotol_pos). specialize (B d). split; [apply B1 | apply B2].
    + apply (in_triangle_above (fst q) x d); [exact T | lra].
    + apply (in_triangle_below (fst q) x d); [exact T | lra].
  - intros q x Iq T S. apply In_nth_error in Iq as [j Ej]. assert (Ij : In j ids).
    { apply H. exists q, x. split; [exact Ej|]. split; [exact T|]. intros d. specialize (S d). unfold plane_tol in S. assert (Z := zerotol_pos). lra. }
    destruct (in_visit _ _ _ _ El Ij) as (q' & Q & Iq). apply L_nth in Q. assert (q' = q) as -> by congruence.
    assert (G : forall l news, Forall2 (clipped_into lo hi) l news -> In q l -> exists new, In new news /\ clipped_into lo hi q new).
    { clear. intros l news F. induction F as [|q0 n0 l0 nn C0 F IH]; intros I; [destruct I|]. destruct I as [<-|I]; [exists n0; split; [left; reflexivity | exact C0]|]. destruct (IH I) as (new & In' & Cn). exists new. split; [right; exact In' | exact Cn]. }
    destruct (G _ _ Cm Iq) as (new & In' & C1 & _ & _ & Cv). destruct (Cv x T S) as (s & Is & X). exists s. split; [apply in_concat; exists new; split; assumption|]. split; [exact X | apply C1, Is].
Qed.
(** The area of a segment, if all triangles are in general position. *)
Hypothesis gp : forall q, In q L -> general_position (plane_at gi) (fun d => n_at d (gi_grid gi)) (fst q) /\ within_grid (plane_at gi) (fun d => n_at d (gi_grid gi)) (fst q).
Lemma planes_ok : positions_ok (plane_at gi).
Proof. intros d i. rewrite plane_step. destruct ok as (_ & _ & Hw & _). specialize (Hw d). lra. Qed.
Lemma cell_area i m r : (i < num_elements (gi_grid gi))%nat -> clip_unique g src (lower (box_xyz gi i)) (upper (box_xyz gi i)) = Some m -> visit_n (cm_mesh m) = Some r ->
  let c := mat_of (gi_grid gi) i in sum (fun s => tri_area (fst s)) r = sum (fun q => area_of (part3 (plane_at gi) (fst q) (cx c) (cy c) (cz c)) * tri_area (fst q)) L.
Proof.
  intros Li E V c. destruct ok as (Hg & Hb & Hw & Hn & Wf & Nz & Nt).
  set (lo := vadd (lower (box_xyz gi i)) unique_offset) in *. set (hi := vadd (upper (box_xyz gi i)) unique_offset) in *.
  assert (C : cell gi i lo hi) by (apply (cell_iff gi Hg Hb); split; [exact Li|]; split; reflexivity).
  destruct (cell_clip i lo hi C) as (ids & l & m' & news & E' & N & H & El & Em & _ & _ & _).
  assert (m' = m) as ->. { unfold clip_unique in E. fold lo hi in E. rewrite E' in E. cbn [and_then] in E. congruence. }
  rewrite (clip_mesh_area src ids lo hi l m r El Em V). destruct (mat_of_in_grid _ i Hg Li) as (X & Y & Zc).
  assert (Elo : lo = corner_of (plane_at gi) (cx c) (cy c) (cz c)) by (apply pt_eq; intros d; unfold lo; rewrite (box_plane_lo gi Hb); destruct d; reflexivity).
  assert (Ehi : hi = corner_of (plane_at gi) (S (cx c)) (S (cy c)) (S (cz c))) by (apply pt_eq; intros d; unfold hi; rewrite (box_plane_hi gi Hb); destruct d; reflexivity).
  set (F := fun q : tri pt * pt => area_of (part3 (plane_at gi) (fst q) (cx c) (cy c) (cz c)) * tri_area (fst q)).
  transitivity (sum (at_or F L) ids).
  - apply (visit_sum (triangle_n src)) with (l := ids); [|exact El]. intros j q Ij Q. apply L_nth in Q. unfold at_or. rewrite Q. unfold F. f_equal.
    apply H in Ij as (q' & x & Q' & T & B). assert (q' = q) as -> by congruence. destruct (gp q (nth_error_In _ _ Q)) as [G W]. rewrite Elo, Ehi.
    apply (kept_part (plane_at gi) (fun d => n_at d (gi_grid gi)) (fst q) G (cx c) (cy c) (cz c) X Y Zc x T).
    intros d. rewrite <- Elo, <- Ehi. specialize (B d). assert (Zt := zerotol_pos). lra.
  - rewrite <- (sum_at_or F L), L_length. apply sum_sub; [exact N | |].
    + intros j J. apply H in J as (q & x & Q & _). rewrite <- L_length. apply nth_error_Some. congruence.
    + intros j Lj J. unfold at_or. destruct (nth_error L j) as [q|] eqn:Q; [|reflexivity]. unfold F. destruct (gp q (nth_error_In _ _ Q)) as [G W].
      destruct (Req_EM_T (area_of (part3 (plane_at gi) (fst q) (cx c) (cy c) (cz c))) 0) as [->|Na]; [ring|]. exfalso. apply J. apply H.
      destruct (part3_room (plane_at gi) (fun d => n_at d (gi_grid gi)) (fst q) planes_ok G (cx c) (cy c) (cz c) X Y Zc Na) as (x & T & B). exists q, x. split; [exact Q|]. split; [exact T|].
      intros d. specialize (B d). rewrite <- Elo, <- Ehi in B. lra.
Qed.
Lemma cells_area : sum (fun i => let c := mat_of (gi_grid gi) i in sum (fun q => area_of (part3 (plane_at gi) (fst q) (cx c) (cy c) (cz c)) * tri_area (fst q)) L) (seq 0 (num_elements (gi_grid gi))) =
  sum (fun q => tri_area (fst q)) L.
Proof.
  destruct ok as (Hg & Hb & Hw & Hn & Wf & Nz & Nt). cbv zeta. rewrite sum_swap. apply sum_ext. intros q Iq. destruct (gp q Iq) as [G W].
  set (P := fun x y z => area_of (part3 (plane_at gi) (fst q) x y z) * tri_area (fst q)).
  assert (En : num_elements (gi_grid gi) = (nz (gi_grid gi) * (ny (gi_grid gi) * nx (gi_grid gi)))%nat) by (unfold num_elements; ring). rewrite En, sum_mul.
  rewrite (sum_ext _ (fun z => sum (fun y => sum (fun x => P x y z) (seq 0 (nx (gi_grid gi)))) (seq 0 (ny (gi_grid gi))))).
  2: { intros z Iz. rewrite sum_mul. apply sum_ext. intros y Iy. apply sum_ext. intros x Ix. apply in_seq in Ix, Iy, Iz.
    assert (Ec : mat_of (gi_grid gi) (z * (ny (gi_grid gi) * nx (gi_grid gi)) + (y * nx (gi_grid gi) + x)) = C3 x y z).
    { rewrite <- (mat_of_vec_of (gi_grid gi) (C3 x y z)) by (repeat split; cbn; lia). f_equal. unfold GridModel.vec_of. cbn [cx cy cz]. lia. }
    rewrite Ec. reflexivity. }
  rewrite (sum_ext _ (fun z => sum (fun x => sum (fun y => P x y z) (seq 0 (ny (gi_grid gi)))) (seq 0 (nx (gi_grid gi))))) by (intros z _; apply sum_swap).
  rewrite sum_swap. rewrite (sum_ext _ (fun x => sum (fun y => sum (fun z => P x y z) (seq 0 (nz (gi_grid gi)))) (seq 0 (ny (gi_grid gi))))) by (intros x _; apply sum_swap).
  assert (S1 := parts_sum (plane_at gi) (fun d => n_at d (gi_grid gi)) (fst q) planes_ok G W). cbn [n_at] in S1.
  transitivity (tri_area (fst q) * 1); [|ring]. rewrite <- S1, <- sum_scal. apply sum_ext. intros x _. rewrite <- sum_scal. apply sum_ext. intros y _. rewrite <- sum_scal. apply sum_ext. intros z _. unfold P. ring.
Qed.
End OneCell.
