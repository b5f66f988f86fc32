(** C65: the search for the domain of a trimmed element. *)
From Coq Require Import Reals List Arith NArith ZArith Bool Lia Lra Permutation.
From Verif Require Import Geo MappingModel TrimmedQuadModel MeshModel MeshProofs MeshGeoModel MeshGeoProofs MeshSumProofs MeshBoxProofs MeshProps ClipModel SearchModel GeoQueryModel GeoQueryProofs SatMain ClipMeshProofs ClipResult ClipProps ClipCells DomainModel DomainProps ContourModel ContourProofs ContourProps ContourWitness ConditionProofs TrimSearchModel TrimSearchSpec TrimSearchProofs TrimSearchGeo TrimSearchInside.
Import ListNotations.
Local Open Scope R_scope.

(** The random numbers are in [1, 100]. *)
Definition in_range (rnd : nat -> pt * pt) : Prop := forall k i, 1 <= at_ i (fst (rnd k)) <= 100 /\ 1 <= at_ i (snd (rnd k)) <= 100.
Definition cell_volume (lo hi : pt) : R := (px hi - px lo) * (py hi - py lo) * (pz hi - pz lo).
(** The search operates on the triangles of the mesh. *)
Definition geometry (src : mesh pt) (g : gquery) (L : list (tri pt * pt)) : Prop :=
  well_formed src /\ visit_n src = Some L /\ L <> [] /\ (Z.of_nat (length L) <= 2 ^ 30)%Z /\ exists junk, make_query junk (map fst L) true = Some g.

Section Props.
Variable src : mesh pt.
Variable g : gquery.
Variable L : list (tri pt * pt).
Variable lookup : plane -> list point2 -> point2 -> option nat.
Variable sort_points : list point2 -> list point2.
Variable sort_edges : list point2 -> list (edge2 * bool) -> list (edge2 * bool).
Variable inside : cmesh -> R -> pt -> bool.
Variable rnd : nat -> pt * pt.
Variables (lo hi : pt) (ratio : R) (min : nat) (neglect : bool).
Hypothesis Dr : in_range rnd.
Notation search := (trimmed_domain src g lookup sort_points sort_edges inside rnd lo hi ratio min neglect).
Notation clip := (clip_cell src g).
Notation build := (fun m lo hi => make_domain lookup sort_points sort_edges inside m lo hi min).
Notation face := (face_of lookup sort_points sort_edges inside).
Notation step := (10 * snap_of lo hi).

Lemma step_pos : 0 < step. Proof. assert (S := snap_pos lo hi). lra. Qed.
Lemma search_eq : search = search_loop src g lookup sort_points sort_edges inside rnd ratio min neglect (cell_volume lo hi) step 28 1 false lo hi None (5 / 10) 0.
Proof. unfold trimmed_domain. cbv zeta. assert (E : px (vsub hi lo) * py (vsub hi lo) * pz (vsub hi lo) = cell_volume lo hi) by reflexivity. rewrite E. with_strategy opaque [search_loop snap_of] reflexivity. Qed.
Lemma search_choice r : search = Found r -> exists l, attempts clip build step lo hi l /\ chosen ratio (cell_volume lo hi) neglect l r.
Proof. intros E. rewrite search_eq in E. apply (loop_chosen src g lookup sort_points sort_edges inside rnd ratio min neglect (cell_volume lo hi) step Dr step_pos lo hi r E). Qed.

Hypothesis Ge : geometry src g L.
Hypothesis Wi : wide lo hi.
Hypothesis Sp : permutes sort_points.
Hypothesis Se : forall vs, permutes (sort_edges vs).
Lemma clip_ok lo' hi' : wide lo' hi' -> exists m, clip lo' hi' = Some m /\ clip_result L lo' hi' m.
Proof. intros W. destruct Ge as (A & B & C & D & junk & E). exact (clip_cell_ok src g junk L A B C D E lo' hi' W). Qed.
Lemma search_ends : (exists r, search = Found r) \/
  (search = Failed /\ exists n lo' hi' sw m f, (n <= 13)%nat /\ moved step n lo hi lo' hi' /\ clip lo' hi' = Some m /\ In f six_faces /\ face m lo' hi' sw f = None).
Proof.
  destruct (loop_spec src g lookup sort_points sort_edges inside rnd ratio min neglect (cell_volume lo hi) step Dr step_pos 28 1 false lo hi None (5 / 10) 0) as (H1 & H2 & _); [lia|lia|unfold left_of; lia|].
  rewrite <- search_eq in H1, H2. destruct search as [r| |]; [left; exists r; reflexivity| |congruence].
  right. split; [reflexivity|]. destruct (H2 eq_refl) as (l & lo' & hi' & sw & St & Lk & _ & Le & C). clear H1 H2.
  destruct (attempt_boxes step _ step_pos lo hi false St Lk (length l) (Attempt lo' hi' sw None)) as (_ & n & N & M); [rewrite nth_error_app2, Nat.sub_diag by lia; reflexivity|]. cbn [a_lo a_hi] in M. rewrite Nat.add_0_r in N.
  assert (N13 : (n <= 13)%nat). { unfold left_of in Le. cbn in Le. apply (Nat.le_trans _ _ _ N). change 13%nat with (Nat.div2 27). rewrite !Nat.div2_div. apply Nat.div_le_mono; lia. }
  assert (W' := wide_moved step n lo hi lo' hi' step_pos Wi M). destruct (clip_ok lo' hi' W') as (m & Em & Cr). destruct C as [C|(m' & Em' & Nm & C)]; [congruence|]. assert (m' = m) as -> by congruence.
  destruct (make_domain_ok L lookup sort_points sort_edges inside Sp Se m lo' hi' min sw Cr (wide_box _ _ W') Nm) as [(f & If & Ef)|(d & Ed & _ & Dr')].
  - exists n, lo', hi', sw, m, f. auto.
  - exfalso. destruct C as [C|(d' & Ed' & C)]; [congruence|]. assert (d' = d) as -> by congruence. destruct Dr' as (r & fs & l' & _ & _ & _ & V & _).
    destruct C as [C|C]; [rewrite (volume_visit _ _ V) in C; discriminate|unfold estimate_quality in C; rewrite V in C; discriminate].
Qed.
Lemma attempt_result l a d v q : attempts clip build step lo hi l -> (length l <= 28)%nat -> In a l -> a_domain a = Some (d, v, q) -> exists n, (n <= 13)%nat /\ moved step n lo hi (a_lo a) (a_hi a) /\
  clip (a_lo a) (a_hi a) = Some (dm_clipped d) /\ domain_result L (a_lo a) (a_hi a) min d /\ mesh_volume (dm_closed d) = Some v /\ estimate_quality (dm_closed d) = Some q.
Proof.
  intros (St & Lk & T) Le I Ad. apply In_nth_error in I as [k Ek]. destruct (attempt_boxes step _ step_pos lo hi false St Lk k a Ek) as (_ & n & N & M). rewrite Nat.add_0_r in N. exists n.
  assert (K : (k < length l)%nat) by (apply nth_error_Some; congruence). split. { apply (Nat.le_trans _ _ _ N). change 13%nat with (Nat.div2 27). rewrite !Nat.div2_div. apply Nat.div_le_mono; lia. }
  split; [exact M|]. rewrite Forall_forall in T. destruct (T a (nth_error_In _ _ Ek)) as (m & Em & Td). rewrite Ad in Td. destruct Td as (Nm & Bd & V & Q).
  assert (W' := wide_moved step n lo hi _ _ step_pos Wi M). destruct (clip_ok _ _ W') as (m' & Em' & Cr). assert (m' = m) as -> by congruence.
  destruct (make_domain_ok L lookup sort_points sort_edges inside Sp Se m _ _ min (a_switch a) Cr (wide_box _ _ W') Nm) as [(f & If & Ef)|(d' & Ed & Dc & Dr')].
  - exfalso. unfold make_domain in Bd. destruct (num_triangles (cm_mesh m) =? 0)%nat eqn:E0; [apply Nat.eqb_eq in E0; lia|]. destruct (all_of _) as [fs|] eqn:Ea; [|discriminate]. apply all_of_some in Ea.
    assert (X : In (face m (a_lo a) (a_hi a) (a_switch a) f) (map Some fs)) by (rewrite <- Ea; apply in_map, If). rewrite Ef in X. apply in_map_iff in X as (y & Y & _). discriminate.
  - assert (d' = d) as -> by congruence. rewrite Dc. auto.
Qed.
Lemma search_guarantees d : search = Found (Some d) -> exists n lo' hi' v q, (n <= 13)%nat /\ moved step n lo hi lo' hi' /\ clip lo' hi' = Some (dm_clipped d) /\ domain_result L lo' hi' min d /\
  mesh_volume (dm_closed d) = Some v /\ ratio < v / cell_volume lo hi /\ estimate_quality (dm_closed d) = Some q /\ q < 1 / 2 /\ (neglect = true -> q <= / 10 ^ 2) /\
  exists l, visit_n (dm_closed d) = Some l /\ forall t c, In t l -> In c (corners_of (fst t)) -> in_grown lo hi (13000 * snap_of lo hi + plane_tol) c.
Proof.
  intros E. destruct (search_choice _ E) as (l & At & Ch).
  assert (P5 : / 10 ^ 5 <= / 10 ^ 2) by (apply Rinv_le_contravar; [apply pow_lt; lra|apply Rle_pow; [lra|lia]]).
  assert (P2 : / 10 ^ 2 < 1 / 2) by (replace (1 / 2) with (/ 2) by lra; apply Rinv_lt_contravar; lra).
  assert (H : exists a v q, In a l /\ (length l <= 28)%nat /\ a_domain a = Some (d, v, q) /\ ratio < v / cell_volume lo hi /\ q < 1 / 2 /\ (neglect = true -> q <= / 10 ^ 2)).
  { destruct Ch as [(l0 & a & d' & v & q & -> & Le & _ & Ad & Q & R1 & R2)|(Le & _ & [(d' & q & (l1 & a & l2 & -> & (v & Ad & Vr & Q) & _) & R1 & R2)|(_ & X)])].
    - destruct (Rle_lt_dec (v / cell_volume lo hi) ratio) as [X|X]; [specialize (R2 X); discriminate|]. specialize (R1 X). injection R1 as ->. exists a, v, q. split; [apply in_or_app; right; left; reflexivity|]. split; [exact Le|]. split; [exact Ad|]. split; [exact X|]. split; [lra|]. intros _. lra.
    - assert (Z : neglect = false \/ q <= / 10 ^ 2). { destruct (Rle_lt_dec q (/ 10 ^ 2)) as [X|X]; [right; exact X|]. destruct neglect eqn:Nn; [specialize (R2 eq_refl X); discriminate|left; reflexivity]. }
      specialize (R1 Z). injection R1 as ->. exists a, v, q. split; [apply in_or_app; right; left; reflexivity|]. split; [lia|]. split; [exact Ad|]. split; [exact Vr|]. split; [exact Q|]. intros Nn. destruct Z as [Z|Z]; [congruence|exact Z].
    - discriminate. }
  destruct H as (a & v & q & I & Le & Ad & Vr & Q & Nq). destruct (attempt_result l a d v q At Le I Ad) as (n & N & M & C & Dd & V & Qu). exists n, (a_lo a), (a_hi a), v, q.
  do 9 (split; [assumption|]). assert (Dd' := Dd). destruct Dd' as (r & fs & l' & _ & _ & _ & Vl & _ & _ & _ & Cs & _). exists l'. split; [exact Vl|]. intros t c It Ic i. destruct (Cs t It) as [G _]. specialize (G c Ic i). specialize (M i). assert (Sn := snap_pos lo hi).
  assert (In13 : INR n <= 13) by (change 13%nat with (7 + 6)%nat in N; apply le_INR in N; rewrite plus_INR in N; cbn [INR] in N; lra).
  assert (B : INR n * (100 * (10 * snap_of lo hi)) <= 13 * (100 * (10 * snap_of lo hi))) by (apply Rmult_le_compat_r; lra). lra.
Qed.
Lemma loop_empty m : clip lo hi = Some m -> num_triangles (cm_mesh m) = 0%nat -> forall cell st fuel iteration sw best error k, (iteration <= 15)%nat -> (iteration < 15 \/ sw = false)%nat -> (left_of iteration sw <= fuel)%nat ->
  search_loop src g lookup sort_points sort_edges inside rnd ratio min neglect cell st fuel iteration sw lo hi best error k = Found (if rltb (/ 10 ^ 2) error && neglect then None else best).
Proof.
  intros Em N cell st. induction fuel as [|fuel IH]; intros it sw best error k I15 Sw Fu; cbn [search_loop]; destruct (it <? 15)%nat eqn:It.
  - apply Nat.ltb_lt in It. exfalso. unfold left_of in Fu. destruct sw; lia.
  - destruct (_ && _); reflexivity.
  - rewrite Em, N. cbn [Nat.ltb Nat.leb]. apply Nat.ltb_lt in It. apply IH; unfold left_of in *; destruct sw; cbn [negb]; lia.
  - destruct (_ && _); reflexivity.
Qed.
Lemma search_empty : (forall q, In q L -> ~ meets lo hi (fst q)) -> search = Found None.
Proof.
  intros H. destruct (clip_ok lo hi Wi) as (m & Em & (r & _ & V & Pr & _)). assert (r = []) as ->. { destruct r as [|s r]; [reflexivity|]. destruct (Pr s (or_introl eq_refl)) as (q & Iq & Mq & _). destruct (H q Iq Mq). }
  rewrite search_eq. rewrite (loop_empty m Em); [destruct (_ && _); reflexivity| |lia|lia|unfold left_of; lia]. apply visit_seq in V. symmetry. apply V.
Qed.
Lemma loop_good m d v q cell st fuel sw best error k : clip lo hi = Some m -> (0 < num_triangles (cm_mesh m))%nat -> build m lo hi sw = Some d -> mesh_volume (dm_closed d) = Some v -> estimate_quality (dm_closed d) = Some q -> q < / 10 ^ 5 ->
  search_loop src g lookup sort_points sort_edges inside rnd ratio min neglect cell st (S fuel) 1 sw lo hi best error k = Found (if rltb ratio (v / cell) then Some d else None).
Proof.
  intros Em N Bd V Q Qs. cbn [search_loop]. change (1 <? 15)%nat with true. cbv iota. rewrite Em. apply Nat.ltb_lt in N. rewrite N, Bd, V, Q. rewrite (rltb_yes q _ Qs). reflexivity.
Qed.
Lemma search_inside v q : inside_cell lo hi L -> empty_faces inside lo hi -> (min <= length L)%nat -> mesh_volume src = Some v -> estimate_quality src = Some q -> q < / 10 ^ 5 ->
  (v / cell_volume lo hi <= ratio -> search = Found None) /\
  (ratio < v / cell_volume lo hi -> exists d l, search = Found (Some d) /\ visit_n (dm_closed d) = Some l /\ Permutation l L /\ visit_n (cm_mesh (dm_clipped d)) = Some l /\ dm_snap d = snap_of lo hi).
Proof.
  intros Ic Ef Mn V Q Qs. destruct Ge as (A & B & C & D & junk & E). destruct (clip_cell_inside src g junk L A B C D E lo hi Wi Ic) as (m & l & Em & Om & Ed & Vm & Pl).
  assert (Ll := Permutation_length Pl). assert (Nl : l <> []) by (intros ->; apply Permutation_nil in Pl; congruence).
  destruct (make_domain_inside lookup sort_points sort_edges inside Se m l lo hi min false Om Ed Vm Nl ltac:(lia) Ef) as (d & Bd & Dc & Wd & Vd & Sd).
  destruct (quality_perm (dm_closed d) src l L Vd B Pl) as [Q1 V1]. assert (Ln := proj1 (proj1 (visit_seq _ _ _) Vm)).
  assert (S : search = Found (if rltb ratio (v / cell_volume lo hi) then Some d else None)).
  { rewrite search_eq. apply (loop_good m d v q); [exact Em| |exact Bd|congruence|congruence|exact Qs]. destruct l; [congruence|cbn in Ln; lia]. }
  split; intros R; rewrite S; [rewrite rltb_no by exact R; reflexivity|rewrite rltb_yes by exact R]. exists d, l. rewrite Dc. auto.
Qed.
End Props.

(** A result is the choice of the specification among attempts that follow it. *)
Theorem C65_choice : forall src g lookup sort_points sort_edges inside rnd lo hi ratio min neglect r, in_range rnd ->
  trimmed_domain src g lookup sort_points sort_edges inside rnd lo hi ratio min neglect = Found r ->
  exists l, attempts (clip_cell src g) (fun m lo hi => make_domain lookup sort_points sort_edges inside m lo hi min) (10 * snap_of lo hi) lo hi l /\
    chosen ratio (cell_volume lo hi) neglect l r.
Proof. intros. apply search_choice with (rnd := rnd); assumption. Qed.
Print Assumptions C65_choice.
(** The search ends with a result, or the triangulation of a face has no result for one of its boxes. *)
Theorem C65_ends : forall src g L lookup sort_points sort_edges inside rnd lo hi ratio min neglect, in_range rnd -> geometry src g L -> wide lo hi ->
  permutes sort_points -> (forall vs, permutes (sort_edges vs)) ->
  let search := trimmed_domain src g lookup sort_points sort_edges inside rnd lo hi ratio min neglect in
  (exists r, search = Found r) \/
  (search = Failed /\ exists n lo' hi' sw m f, (n <= 13)%nat /\ moved (10 * snap_of lo hi) n lo hi lo' hi' /\ clip_cell src g lo' hi' = Some m /\ In f six_faces /\
     face_of lookup sort_points sort_edges inside m lo' hi' sw f = None).
Proof. intros. apply search_ends with (L := L); assumption. Qed.
Print Assumptions C65_ends.
(** What holds for each domain that is returned. *)
Theorem C65_guarantees : forall src g L lookup sort_points sort_edges inside rnd lo hi ratio min neglect d, in_range rnd -> geometry src g L -> wide lo hi ->
  permutes sort_points -> (forall vs, permutes (sort_edges vs)) ->
  trimmed_domain src g lookup sort_points sort_edges inside rnd lo hi ratio min neglect = Found (Some d) ->
  exists n lo' hi' v q, (n <= 13)%nat /\ moved (10 * snap_of lo hi) n lo hi lo' hi' /\ clip_cell src g lo' hi' = Some (dm_clipped d) /\ domain_result L lo' hi' min d /\
    mesh_volume (dm_closed d) = Some v /\ ratio < v / cell_volume lo hi /\ estimate_quality (dm_closed d) = Some q /\ q < 1 / 2 /\ (neglect = true -> q <= / 10 ^ 2) /\
    exists l, visit_n (dm_closed d) = Some l /\ forall t c, In t l -> In c (corners_of (fst t)) -> in_grown lo hi (13000 * snap_of lo hi + plane_tol) c.
Proof. intros. apply search_guarantees with (lookup := lookup) (sort_points := sort_points) (sort_edges := sort_edges) (inside := inside) (rnd := rnd); assumption. Qed.
Print Assumptions C65_guarantees.
(** No domain for a cell without geometry. *)
Theorem C65_empty : forall src g L lookup sort_points sort_edges inside rnd lo hi ratio min neglect, geometry src g L -> wide lo hi ->
  (forall q, In q L -> ~ meets lo hi (fst q)) ->
  trimmed_domain src g lookup sort_points sort_edges inside rnd lo hi ratio min neglect = Found None.
Proof. intros. apply search_empty with (L := L); assumption. Qed.
Print Assumptions C65_empty.
(** A geometry inside the cell is its own domain. *)
Theorem C65_inside : forall src g L lookup sort_points sort_edges inside rnd lo hi ratio min neglect v q, geometry src g L -> wide lo hi ->
  (forall vs, permutes (sort_edges vs)) -> inside_cell lo hi L -> empty_faces inside lo hi -> (min <= length L)%nat ->
  mesh_volume src = Some v -> estimate_quality src = Some q -> q < / 10 ^ 5 ->
  let search := trimmed_domain src g lookup sort_points sort_edges inside rnd lo hi ratio min neglect in
  (v / cell_volume lo hi <= ratio -> search = Found None) /\
  (ratio < v / cell_volume lo hi -> exists d l, search = Found (Some d) /\ visit_n (dm_closed d) = Some l /\ Permutation l L /\
     visit_n (cm_mesh (dm_clipped d)) = Some l /\ dm_snap d = snap_of lo hi).
Proof. intros. apply search_inside with (L := L) (q := q); assumption. Qed.
Print Assumptions C65_inside.

(** *** Example: a box with sides of length 1/2 *)
Definition small_box : mesh pt := mesh_box (Pt (1/4) (1/4) (1/4)) (Pt (3/4) (3/4) (3/4)).
Definition small_tris : list (tri pt * pt) := box_tris (Pt (1/4) (1/4) (1/4)) (Pt (3/4) (3/4) (3/4)).
Definition blank : nat -> node RA := fun _ => Node RA no_bounds None None None None 0 0.
Lemma small_geometry : exists g, geometry small_box g small_tris.
Proof.
  destruct (make_query_ok blank (map fst small_tris) true) as (g & E & _); [rewrite map_length; cbn [length small_tris box_tris]; lia|]. exists g. split; [apply box_wf|]. split; [apply box_visit|]. split; [discriminate|].
  split; [cbn [length small_tris box_tris]; lia|]. exists blank. exact E.
Qed.
Lemma small_measures : mesh_volume small_box = Some (1 / 8) /\ estimate_quality small_box = Some 0.
Proof.
  assert (B : box_ok (Box (Pt (1/4) (1/4) (1/4)) (Pt (3/4) (3/4) (3/4)))) by (intros []; cbn; lra). split.
  - destruct (box_area_volume _ _ B) as (_ & V & _). unfold small_box. rewrite V. f_equal. cbn [px py pz]. field.
  - apply (closed_quality small_box small_tris (box_visit _ _)).
    + apply (manifold_closed (Pt 0 0 0) small_box); [apply box_manifold|]. unfold small_tris. apply visit_fst, box_visit.
    + apply Forall_forall. intros q I. apply (box_exact _ _ q B I).
    + unfold small_tris, box_tris, det, dot, cross. cbn [map sum fst P1 P2 P3 px py pz]. lra.
Qed.
Definition fifty : nat -> pt * pt := fun _ => (Pt 50 50 50, Pt 50 50 50).
Definition far_lo : pt := Pt 2 2 2.
Definition far_hi : pt := Pt 3 3 3.
Lemma unit_snap a : snap_of (Pt a a a) (Pt (a + 1) (a + 1) (a + 1)) = / 10 ^ 12.
Proof. unfold snap_of, relative_tol. cbn [px py pz]. replace (a + 1 - a) with 1 by ring. assert (M : forall x, Rmax x x = x) by (intros x; apply Rmax_left, Rle_refl). rewrite !M, Rmult_1_l. apply M. Qed.
Lemma tiny : / 10 ^ 12 <= / 100.
Proof. apply Rinv_le_contravar; [lra|]. replace 100 with (10 ^ 2) by lra. apply Rle_pow; [lra|lia]. Qed.
(** The box in the unit cell is its own domain, whatever the search for vertices and the random numbers; there is no domain in a distant cell. *)
Example C65_example : exists g, geometry small_box g small_tris /\ in_range fifty /\ wide (Pt 0 0 0) (Pt 1 1 1) /\ permutes point_sort /\ (forall vs, permutes (top_sort vs)) /\ (exists d l, trimmed_domain small_box g (fun pl => ContourWitness.search (snap pl)) point_sort top_sort (fun _ _ _ => false) fifty (Pt 0 0 0) (Pt 1 1 1) (1 / 100) 12 true = Found (Some d) /\    visit_n (dm_closed d) = Some l /\ Permutation l small_tris /\ mesh_volume (dm_closed d) = Some (1 / 8) /\ estimate_quality (dm_closed d) = Some 0) /\ trimmed_domain small_box g (fun pl => ContourWitness.search (snap pl)) point_sort top_sort (fun _ _ _ => false) fifty (Pt 0 0 0) (Pt 1 1 1) (1 / 4) 12 true = Found None /\ trimmed_domain small_box g (fun pl => ContourWitness.search (snap pl)) point_sort top_sort (fun _ _ _ => false) fifty far_lo far_hi (1 / 100) 12 true = Found None.
Proof.
  destruct small_geometry as [g G]. exists g. split; [exact G|]. assert (S0 := unit_snap 0). assert (S2 := unit_snap 2). rewrite Rplus_0_l in S0. replace (2 + 1) with 3 in S2 by lra. assert (Ti := tiny). assert (Tp : 0 < / 10 ^ 12) by (apply Rinv_0_lt_compat, pow_lt; lra).
  split; [intros k []; cbn; lra|]. assert (W : wide (Pt 0 0 0) (Pt 1 1 1)) by (intros i; rewrite S0; destruct i; cbn [at_ px py pz]; lra). split; [exact W|].
  assert (Sp : permutes point_sort) by (intros l; apply sort_by_perm). assert (Se : forall vs, permutes (top_sort vs)) by (intros vs l; apply sort_by_perm). split; [exact Sp|]. split; [exact Se|].
  destruct small_measures as [V Q]. assert (P5 : 0 < / 10 ^ 5) by (apply Rinv_0_lt_compat, pow_lt; lra).
  assert (I : forall c q, In q small_tris -> In c (corners_of (fst q)) -> forall i, 1 / 4 <= at_ i c <= 3 / 4).
  { intros c q Iq Ic i. unfold small_tris, box_tris in Iq. repeat destruct Iq as [<- | Iq]; [..|destruct Iq]; destruct Ic as [<- | [<- | [<- | []]]]; destruct i; cbn; lra. }
  assert (Ic : inside_cell (Pt 0 0 0) (Pt 1 1 1) small_tris) by (intros q c i Iq Icc; rewrite S0; specialize (I c q Iq Icc i); destruct i; cbn [at_ px py pz] in *; lra).
  assert (X : forall ratio, _) by (intros ratio; exact (C65_inside small_box g small_tris (fun pl => ContourWitness.search (snap pl)) point_sort top_sort (fun _ _ _ => false) fifty (Pt 0 0 0) (Pt 1 1 1) ratio 12 true (1 / 8) 0 G W Se Ic (fun _ _ _ _ _ => eq_refl) (le_n 12) V Q P5)).
  cbv zeta in X. assert (Cv : cell_volume (Pt 0 0 0) (Pt 1 1 1) = 1) by (unfold cell_volume; cbn [px py pz]; ring). rewrite Cv in X. split; [|split].
  - destruct (proj2 (X (1 / 100)) ltac:(lra)) as (d & l & E & Vd & Pl & _). exists d, l. split; [exact E|]. split; [exact Vd|]. split; [exact Pl|]. destruct (quality_perm (dm_closed d) small_box l small_tris Vd (box_visit _ _) Pl) as [Q1 V1]. rewrite Q1, V1. auto.
  - apply (X (1 / 4)). lra.
  - apply C65_empty with (L := small_tris); [exact G|intros i; unfold far_lo, far_hi; rewrite S2; destruct i; cbn [at_ px py pz]; lra|]. intros q Iq (x & T & Bx). specialize (Bx AX). unfold far_lo, far_hi in Bx. rewrite S2 in Bx. cbn [at_ px] in Bx.
    assert (Z := I (P1 (fst q)) q Iq (or_introl eq_refl) AX).
    destruct T as (a & b & c & A & B & C & S & ->). assert (Z2 := I (P2 (fst q)) q Iq (or_intror (or_introl eq_refl)) AX). assert (Z3 := I (P3 (fst q)) q Iq (or_intror (or_intror (or_introl eq_refl))) AX). cbn [at_ px vadd vscale] in *. nra.
Qed.
