(** Property C70: what the classification of the cells says about a closed surface. *)
From Coq Require Import Reals List Arith Bool NArith ZArith Relations Permutation Lia Lra Psatz.
From Verif Require Import Geo GridModel GridSpec GridProofs GridGeoModel GridStoreModel MappingModel TrimmedQuadModel MeshModel MeshProofs MeshGeoModel MeshGeoProofs MeshBoxProofs MeshSumProofs MeshProps ClipModel SearchModel GeoQueryModel SatMain GeoQueryProofs RayProofs CastProofs GeoQueryProps
  ClipResult ClipProps ConditionProofs ParitySpec ParityPath ParityCast ParityProps TrimSearchModel TrimSearchGeo VolumeModel VolumeProps FloodModel FloodSpec FloodSets FloodFillProofs FloodMergeProofs FloodProofs FloodProps FloodGeoModel FloodGeoSpec FloodSight FloodGeoCells FloodSections FloodGeoProofs FloodCorner.
Import ListNotations.
Local Open Scope R_scope.

(** The operator works on the triangles [map fst L] of the mesh. *)
Definition surface (src : mesh pt) (g : gquery) (junk : nat -> node RA) (L : list (tri pt * pt)) : Prop :=
  well_formed src /\ visit_n src = Some L /\ L <> [] /\ (Z.of_nat (length L) <= 2 ^ 26)%Z /\ make_query junk (map fst L) true = Some g.
(** The point is in the cell, up to the tolerance of the grid. *)
Definition inside_of (gi : indexer) (i : nat) (x : pt) : Prop := in_box (lower (box_xyz gi i)) (upper (box_xyz gi i)) (cell_tol gi) x.
(** Cell i, which is not cut, is asked about the neighbour n in direction d, whose enlarged box is cut. *)
Definition asked (g : gquery) (gi : indexer) (i n : nat) (d : dir) : Prop := nb (gi_grid gi) d i n /\ cuts g gi i = false /\ cuts_face g gi n d = true.
(** The cells of the region of a cell. *)
Definition region (g : gquery) (gi : indexer) (i j : nat) : Prop := connected (gi_grid gi) (cuts g gi) (cuts_face g gi) i j.

(** No test of the flood fill raises an exception or is undefined. *)
Lemma tests_defined src g junk L gi : surface src g junk L -> sized gi -> forall i n d, cell_cut g gi i <> None /\ face_cut g gi n d <> None /\ face_vote src g junk gi i n d <> None.
Proof.
  intros (A & B & C & D & E) Sz i n d. destruct (cell_cut_ok src g junk gi L B C D E Sz i) as (x & -> & _). destruct (face_cut_ok src g junk gi L B C D E Sz n d) as (y & -> & _).
  destruct (face_vote_ok src g junk gi L A B C D E Sz i n d) as (z & -> & _). repeat split; discriminate.
Qed.
Theorem C70_defined : forall src g junk L gi, surface src g junk L -> sized gi -> forall i n d,
  cell_cut g gi i <> None /\ face_cut g gi n d <> None /\ face_vote src g junk gi i n d <> None.
Proof. exact tests_defined. Qed.
Print Assumptions C70_defined.

(** The classification does not depend on the number of threads: the tests of a face agree from both sides. *)
Lemma threads_agree src g junk L gi t t' st st' : surface src g junk L -> sized gi -> grid_ok (gi_grid gi) -> (0 < t)%nat -> (0 < t')%nat ->
  classified src g junk gi t st -> classified src g junk gi t' st' -> forall i, (i < num_elements (gi_grid gi))%nat -> st i = st' i.
Proof.
  intros (A & B & C & D & E) Sz Hg Ht Ht' H H'. destruct (classify_threads (gi_grid gi) _ _ _ t t' _ _ Hg (symmetric src g junk gi L B C D E Sz) Ht Ht' H H') as (s & s' & E1 & E2 & K).
  injection E1 as <-. injection E2 as <-. exact K.
Qed.
Theorem C70_threads : forall src g junk L gi t t' st st', surface src g junk L -> sized gi -> grid_ok (gi_grid gi) -> (0 < t)%nat -> (0 < t')%nat ->
  classified src g junk gi t st -> classified src g junk gi t' st' -> forall i, (i < num_elements (gi_grid gi))%nat -> st i = st' i.
Proof. exact threads_agree. Qed.
Print Assumptions C70_threads.

(** Exactly the cells that meet the surface are trimmed. *)
Lemma trimmed_iff src g junk L gi t st : surface src g junk L -> sized gi -> grid_ok (gi_grid gi) -> (0 < t)%nat -> classified src g junk gi t st ->
  forall i, (i < num_elements (gi_grid gi))%nat -> (st i = Trimmed <-> exists q x, In q (map fst L) /\ in_triangle q x /\ inside_of gi i x).
Proof.
  intros (A & B & C & D & E) Sz Hg Ht H i Hi. destruct (classify_trimmed (gi_grid gi) _ _ _ t _ Hg Ht H) as (s & E1 & K). injection E1 as <-. rewrite (K i Hi), (T_true src g junk gi L B C D E Sz i).
  split; intros (q & x & I & J & X); exists q, x; (split; [exact I|]); (split; [exact J|]); apply in_cell_box; exact X.
Qed.
Theorem C70_trimmed : forall src g junk L gi t st, surface src g junk L -> sized gi -> grid_ok (gi_grid gi) -> (0 < t)%nat -> classified src g junk gi t st ->
  forall i, (i < num_elements (gi_grid gi))%nat -> (st i = Trimmed <-> exists q x, In q (map fst L) /\ in_triangle q x /\ inside_of gi i x).
Proof. exact trimmed_iff. Qed.
Print Assumptions C70_trimmed.

(** All points of a region are on one side of the surface. *)
Lemma one_side src g junk L gi : surface src g junk L -> sized gi -> closed (map fst L) -> forall i j x y, cuts g gi i = false -> region g gi i j -> inside_of gi i x -> inside_of gi j y ->
  off_surface (map fst L) x /\ off_surface (map fst L) y /\ (surrounded (map fst L) x <-> surrounded (map fst L) y).
Proof.
  intros (A & B & C & D & E) Sz Cl i j x y Ti R X Y. apply in_cell_box in X. apply in_cell_box in Y.
  assert (Tj : cuts g gi j = false) by (apply clos_rt_rtn1 in R; destruct R as [|y' z (d & _ & _ & Tz & _) _]; assumption).
  destruct (cell_side src g junk gi L B C D E Sz Cl i x Ti X) as [O1 S1]. destruct (cell_side src g junk gi L B C D E Sz Cl j y Tj Y) as [O2 S2]. assert (S3 := region_side src g junk gi L B C D E Sz Cl i j R).
  tauto.
Qed.
Theorem C70_region : forall src g junk L gi, surface src g junk L -> sized gi -> closed (map fst L) -> forall i j x y, cuts g gi i = false -> region g gi i j -> inside_of gi i x -> inside_of gi j y ->
  off_surface (map fst L) x /\ off_surface (map fst L) y /\ (surrounded (map fst L) x <-> surrounded (map fst L) y).
Proof. exact one_side. Qed.
Print Assumptions C70_region.

(** A vote for inside is right, and a cell inside gets it if one of the lines of sight is decisive. *)
Lemma vote_iff src g junk L gi : surface src g junk L -> sized gi -> closed (map fst L) -> outward (map fst L) -> forall i n d, asked g gi i n d -> clear_view src g gi i n d ->
  (votes src g junk gi i n d = true -> surrounded (map fst L) (centre_of gi i)) /\ (surrounded (map fst L) (centre_of gi i) -> sure src g gi i n d -> votes src g junk gi i n d = true).
Proof. intros (A & B & C & D & E) Sz Cl Ow i n d (N & Ti & _) Vw. exact (vote_right src g junk gi L A B C D E Sz Cl Ow i n d N Ti Vw). Qed.
Theorem C70_vote : forall src g junk L gi, surface src g junk L -> sized gi -> closed (map fst L) -> outward (map fst L) -> forall i n d, asked g gi i n d -> clear_view src g gi i n d ->
  (votes src g junk gi i n d = true -> surrounded (map fst L) (centre_of gi i)) /\ (surrounded (map fst L) (centre_of gi i) -> sure src g gi i n d -> votes src g junk gi i n d = true).
Proof. exact vote_iff. Qed.
Print Assumptions C70_vote.

(** *** Sums of votes *)
Lemma zsum_positive f l : (0 < zsum f l)%Z -> exists j, In j l /\ (0 < f j)%Z.
Proof. induction l as [|a l IH]; cbn [zsum]; intros H; [lia|]. destruct (Z_lt_dec 0 (f a)) as [A|A]; [exists a; split; [left; reflexivity|exact A]|]. destruct IH as (j & I & J); [lia|]. exists j. split; [right; exact I|exact J]. Qed.
Lemma zsum_nonneg f l : (forall j, In j l -> (0 <= f j)%Z) -> (0 <= zsum f l)%Z /\ ((exists j, In j l /\ (0 < f j)%Z) -> (0 < zsum f l)%Z).
Proof.
  induction l as [|a l IH]; intros H; cbn [zsum]; [split; [lia|]; intros (j & [] & _)|]. destruct IH as [I1 I2]; [intros j I; apply H; right; exact I|]. assert (Ha := H a (or_introl eq_refl)).
  split; [lia|]. intros (j & [<-|I] & J); [lia|]. assert (0 < zsum f l)%Z by (apply I2; exists j; auto). lia.
Qed.
Lemma votes_positive gr P V i : (0 < face_votes gr P V i)%Z -> exists d n, neighbour gr i d = Some n /\ P n d = true /\ V i n d = true.
Proof.
  unfold face_votes. generalize directions. intros l. induction l as [|d l IH]; cbn [fold_right]; intros H; [lia|].
  set (r := fold_right _ 0%Z l) in *. destruct (neighbour gr i d) as [n|] eqn:N; [|apply IH; lia]. unfold vote in H. destruct (P n d) eqn:Pn; [|apply IH; lia]. destruct (V i n d) eqn:Vn; [|apply IH; lia].
  exists d, n. auto.
Qed.
Lemma votes_nonneg gr P V i : (forall d n, neighbour gr i d = Some n -> P n d = true -> V i n d = true) ->
  (0 <= face_votes gr P V i)%Z /\ ((exists d n, neighbour gr i d = Some n /\ P n d = true) -> (0 < face_votes gr P V i)%Z).
Proof.
  intros H. unfold face_votes.
  assert (G : forall l, (0 <= fold_right (fun d acc => ((match neighbour gr i d with Some j => vote P V i j d | None => 0 end) + acc)%Z) 0%Z l)%Z /\
    ((exists d n, In d l /\ neighbour gr i d = Some n /\ P n d = true) -> (0 < fold_right (fun d acc => ((match neighbour gr i d with Some j => vote P V i j d | None => 0 end) + acc)%Z) 0%Z l)%Z)).
  { induction l as [|d l [I1 I2]]; cbn [fold_right]; [split; [lia|]; intros (d & n & [] & _)|]. set (r := fold_right _ 0%Z l) in *.
    assert (K : (0 <= match neighbour gr i d with Some j => vote P V i j d | None => 0 end)%Z).
    { destruct (neighbour gr i d) as [n|] eqn:N; [|lia]. unfold vote. destruct (P n d) eqn:Pn; [|lia]. rewrite (H d n N Pn). lia. }
    split; [lia|]. intros (d' & n & [<-|I] & N & Pn).
    - rewrite N. unfold vote. rewrite Pn, (H d n N Pn). lia.
    - assert (0 < r)%Z by (apply I2; exists d', n; auto). lia. }
  destruct (G directions) as [G1 G2]. split; [exact G1|]. intros (d & n & N & Pn). apply G2. exists d, n. split; [apply In_directions | auto].
Qed.

Section Result.
Variables (src : mesh pt) (g : gquery) (junk : nat -> node RA) (L : list (tri pt * pt)) (gi : indexer) (t : nat) (st : nat -> istate).
Hypothesis Su : surface src g junk L.
Hypothesis Sz : sized gi.
Hypothesis Hg : grid_ok (gi_grid gi).
Hypothesis Ht : (0 < t)%nat.
Hypothesis Ce : clear_of_ends (gi_grid gi) (cuts_face g gi).
Hypothesis Cl : closed (map fst L).
Hypothesis Ow : outward (map fst L).
Hypothesis H : classified src g junk gi t st.
Lemma sym : symmetric_faces (gi_grid gi) (cuts g gi) (cuts_face g gi).
Proof. destruct Su as (A & B & C & D & E). exact (symmetric src g junk gi L B C D E Sz). Qed.
Lemma uncut i : (i < num_elements (gi_grid gi))%nat -> st i <> Trimmed -> cuts g gi i = false.
Proof. intros Hi N. destruct (classify_trimmed (gi_grid gi) _ _ _ t _ Hg Ht H) as (s & E1 & K). injection E1 as <-. destruct (cuts g gi i) eqn:E; [|reflexivity]. destruct N. apply K; assumption. Qed.
Lemma region_cell i j : (i < num_elements (gi_grid gi))%nat -> cuts g gi i = false -> region g gi i j -> (j < num_elements (gi_grid gi))%nat /\ cuts g gi j = false.
Proof. intros Hi Ti R. apply clos_rt_rtn1 in R. destruct R as [|y' z (d & (_ & Hz & _) & _ & Tz & _) _]; auto. Qed.
Lemma state_sum i : (i < num_elements (gi_grid gi))%nat -> cuts g gi i = false -> exists comp, is_region (gi_grid gi) (cuts g gi) (cuts_face g gi) i comp /\
  st i = if (0 <? zsum (face_votes (gi_grid gi) (cuts_face g gi) (votes src g junk gi)) comp)%Z then Inside else Outside.
Proof.
  intros Hi Ti. destruct (region_exists (gi_grid gi) (cuts g gi) (cuts_face g gi) i Hg sym Hi Ti) as (comp & R). exists comp. split; [exact R|].
  exact (guarded (gi_grid gi) _ _ _ t st Hg Ht sym Ce H i comp Hi Ti R).
Qed.
Lemma inside_right : (forall i n d, asked g gi i n d -> clear_view src g gi i n d) -> forall i x, (i < num_elements (gi_grid gi))%nat -> st i = Inside -> inside_of gi i x ->
  off_surface (map fst L) x /\ surrounded (map fst L) x.
Proof.
  intros Vw i x Hi Si X. assert (Ti : cuts g gi i = false) by (apply uncut; [exact Hi|congruence]). destruct (state_sum i Hi Ti) as (comp & (Nd & R) & E). rewrite Si in E.
  destruct (0 <? zsum _ comp)%Z eqn:Z; [|discriminate]. apply Z.ltb_lt in Z. apply zsum_positive in Z as (j & Ij & Vj). apply votes_positive in Vj as (d & n & N & Pn & Vn).
  apply R in Ij. destruct (region_cell i j Hi Ti Ij) as [Hj Tj]. apply (neighbour_iff (gi_grid gi) Hg 1 Nat.lt_0_1 j d n Hj) in N.
  assert (A : asked g gi j n d) by (split; [exact N|]; split; assumption). destruct (vote_iff src g junk L gi Su Sz Cl Ow j n d A (Vw j n d A)) as [V1 _]. specialize (V1 Vn).
  destruct (one_side src g junk L gi Su Sz Cl i j x (centre_of gi j) Ti Ij X) as (O1 & _ & S); [apply in_cell_box, centre_in_cell, Sz|]. split; [exact O1|]. apply S, V1.
Qed.
Lemma exactly_inside i : (i < num_elements (gi_grid gi))%nat -> cuts g gi i = false ->
  (forall j n d, region g gi i j -> asked g gi j n d -> clear_view src g gi j n d /\ sure src g gi j n d) -> (exists j n d, region g gi i j /\ asked g gi j n d) ->
  (st i = Inside <-> surrounded (map fst L) (centre_of gi i)) /\ (st i = Outside <-> ~ surrounded (map fst L) (centre_of gi i)).
Proof.
  intros Hi Ti Vw (j0 & n0 & d0 & R0 & N0). destruct (state_sum i Hi Ti) as (comp & (Nd & R) & E).
  assert (Q : forall j, region g gi i j -> surrounded (map fst L) (centre_of gi i) <-> surrounded (map fst L) (centre_of gi j)).
  { intros j Rj. destruct Su as (A & B & C & D & Eg). exact (region_side src g junk gi L B C D Eg Sz Cl i j Rj). }
  assert (F : (0 < zsum (face_votes (gi_grid gi) (cuts_face g gi) (votes src g junk gi)) comp)%Z <-> surrounded (map fst L) (centre_of gi i)).
  { split.
    - intros Z. apply zsum_positive in Z as (j & Ij & Vj). apply votes_positive in Vj as (d & n & N & Pn & Vn). apply R in Ij. destruct (region_cell i j Hi Ti Ij) as [Hj Tj]. apply (neighbour_iff (gi_grid gi) Hg 1 Nat.lt_0_1 j d n Hj) in N.
      assert (A : asked g gi j n d) by (split; [exact N|]; split; assumption). destruct (vote_iff src g junk L gi Su Sz Cl Ow j n d A (proj1 (Vw j n d Ij A))) as [V1 _]. apply (Q j Ij), V1, Vn.
    - intros Si.
      assert (G : forall j, In j comp -> (0 <= face_votes (gi_grid gi) (cuts_face g gi) (votes src g junk gi) j)%Z /\ ((exists d n, neighbour (gi_grid gi) j d = Some n /\ cuts_face g gi n d = true) -> (0 < face_votes (gi_grid gi) (cuts_face g gi) (votes src g junk gi) j)%Z)).
      { intros j Ij. apply R in Ij. destruct (region_cell i j Hi Ti Ij) as [Hj Tj]. apply votes_nonneg. intros d n N Pn. apply (neighbour_iff (gi_grid gi) Hg 1 Nat.lt_0_1 j d n Hj) in N.
        assert (A : asked g gi j n d) by (split; [exact N|]; split; assumption). destruct (Vw j n d Ij A) as [W1 W2]. destruct (vote_iff src g junk L gi Su Sz Cl Ow j n d A W1) as [_ V2]. apply V2; [apply (Q j Ij), Si | exact W2]. }
      apply zsum_nonneg; [intros j Ij; apply (G j Ij)|]. exists j0. assert (I0 : In j0 comp) by (apply R; exact R0). split; [exact I0|]. apply (G j0 I0). exists d0, n0. destruct N0 as (N0 & _ & P0).
      split; [|exact P0]. apply (neighbour_iff (gi_grid gi) Hg 1 Nat.lt_0_1 j0 d0 n0); [apply N0|exact N0]. }
  destruct (0 <? zsum _ comp)%Z eqn:Z; rewrite E.
  - apply Z.ltb_lt in Z. apply F in Z. split; split; intros K; try reflexivity; try exact Z; [discriminate | destruct (K Z)].
  - apply Z.ltb_ge in Z. assert (Ns : ~ surrounded (map fst L) (centre_of gi i)) by (rewrite <- F; lia). split; split; intros K; try discriminate; try reflexivity; [destruct (Ns K) | exact Ns].
Qed.
End Result.

(** A cell that is classified as inside is inside the surface. *)
Theorem C70_inside : forall src g junk L gi t st, surface src g junk L -> sized gi -> grid_ok (gi_grid gi) -> (0 < t)%nat -> clear_of_ends (gi_grid gi) (cuts_face g gi) ->
  closed (map fst L) -> outward (map fst L) -> classified src g junk gi t st -> (forall i n d, asked g gi i n d -> clear_view src g gi i n d) ->
  forall i x, (i < num_elements (gi_grid gi))%nat -> st i = Inside -> inside_of gi i x -> off_surface (map fst L) x /\ surrounded (map fst L) x.
Proof. exact inside_right. Qed.
Print Assumptions C70_inside.
(** The classification of a region is right if the surface next to it is seen well. *)
Theorem C70_exact : forall src g junk L gi t st, surface src g junk L -> sized gi -> grid_ok (gi_grid gi) -> (0 < t)%nat -> clear_of_ends (gi_grid gi) (cuts_face g gi) ->
  closed (map fst L) -> outward (map fst L) -> classified src g junk gi t st -> forall i, (i < num_elements (gi_grid gi))%nat -> cuts g gi i = false ->
  (forall j n d, region g gi i j -> asked g gi j n d -> clear_view src g gi j n d /\ sure src g gi j n d) -> (exists j n d, region g gi i j /\ asked g gi j n d) ->
  (st i = Inside <-> surrounded (map fst L) (centre_of gi i)) /\ (st i = Outside <-> ~ surrounded (map fst L) (centre_of gi i)).
Proof. exact exactly_inside. Qed.
Print Assumptions C70_exact.
(** So the full elements of the background grid are inside the surface. *)
Lemma full_inside src g junk L gi t st oc se chunks order inf s : surface src g junk L -> sized gi -> grid_ok (gi_grid gi) -> (0 < t)%nat -> clear_of_ends (gi_grid gi) (cuts_face g gi) ->
  closed (map fst L) -> outward (map fst L) -> classified src g junk gi t st -> (forall i n d, asked g gi i n d -> clear_view src g gi i n d) ->
  (N.of_nat (length (active_indices st (num_elements (gi_grid gi)))) < 2 ^ 31)%N -> Permutation order (iterations gi st) -> compute_volume oc se gi st junk src chunks order = Ok (inf, s) ->
  forall i e x, get_element FAll s (i + 1) = GridStoreModel.Found false e -> inside_of gi i x -> off_surface (map fst L) x /\ surrounded (map fst L) x.
Proof.
  intros Su Sz Hg Ht Ce Cl Ow H Vw Ln Po E i e x Ge X. destruct (C67_elements oc se gi st junk src chunks order inf s Ln Po E) as ((tr & g' & pts & _ & _ & _ & G) & _). rewrite G in Ge.
  destruct (i <? num_elements (gi_grid gi))%nat eqn:Hi; [|discriminate]. apply Nat.ltb_lt in Hi.
  destruct (st i) eqn:Si; [exact (inside_right src g junk L gi t st Su Sz Hg Ht Ce Cl Ow H Vw i x Hi Si X) |discriminate|]. destruct (value (trimmed_element oc se gi src g' i)); discriminate.
Qed.
Theorem C70_full : forall src g junk L gi t st oc se chunks order inf s, surface src g junk L -> sized gi -> grid_ok (gi_grid gi) -> (0 < t)%nat -> clear_of_ends (gi_grid gi) (cuts_face g gi) ->
  closed (map fst L) -> outward (map fst L) -> classified src g junk gi t st -> (forall i n d, asked g gi i n d -> clear_view src g gi i n d) ->
  (N.of_nat (length (active_indices st (num_elements (gi_grid gi)))) < 2 ^ 31)%N -> Permutation order (iterations gi st) -> compute_volume oc se gi st junk src chunks order = Ok (inf, s) ->
  forall i e x, get_element FAll s (i + 1) = GridStoreModel.Found false e -> inside_of gi i x -> off_surface (map fst L) x /\ surrounded (map fst L) x.
Proof. exact full_inside. Qed.
Print Assumptions C70_full.
(** *** Examples *)
(** Three unit cells in a row; a large tetrahedron around them, with a small cavity in the middle cell. *)
Definition row : indexer := Indexer (Grid 3 1 1) (Box (Pt 0 0 0) (Pt 3 1 1)) (Box (Pt 0 0 0) (Pt 3 1 1)) true.
Definition mesh_of (l : list (tri pt)) : mesh pt :=
  Mesh (flat_map (fun q => [P1 q; P2 q; P3 q]) l) (map (fun k => (3 * k, 3 * k + 1, 3 * k + 2)%nat) (seq 0 (length l))) (map (fun _ => Pt 0 0 1) l).
Definition o_out : pt := Pt (-10) (-10) (-10).
Definition o_in : pt := Pt (5/4) (1/4) (1/4).
Definition shell : list (tri pt) := tetra o_out 60 false.
Definition with_cavity : list (tri pt) := hollow o_out 60 o_in (1/2).
Definition listed (l : list (tri pt)) : list (tri pt * pt) := map (fun q => (q, Pt 0 0 1)) l.
Lemma listed_fst l : map fst (listed l) = l.
Proof. unfold listed. rewrite map_map. apply map_id. Qed.
Lemma surface_of junk l : l = shell \/ l = with_cavity -> exists g, surface (mesh_of l) g junk (listed l).
Proof.
  intros H. assert (Z : (8 <= 2 ^ 26)%Z) by (change 8%Z with (2 ^ 3)%Z; apply Z.pow_le_mono_r; lia).
  assert (Ln : (length l <= 8)%nat) by (destruct H as [-> | ->]; cbn; lia).
  assert (Z' : (8 <= 2 ^ 30)%Z) by (change 8%Z with (2 ^ 3)%Z; apply Z.pow_le_mono_r; lia).
  destruct (make_query_ok junk l true ltac:(lia)) as (g & Eg & _).
  exists g. split; [|split; [|split; [|split]]].
  - destruct H as [-> | ->]; (split; [reflexivity|]); unfold mesh_of; cbn [m_triangles m_vertices]; repeat (apply Forall_cons; [cbn; lia|]); apply Forall_nil.
  - destruct H as [-> | ->]; reflexivity.
  - destruct H as [-> | ->]; discriminate.
  - unfold listed. rewrite map_length. lia.
  - rewrite listed_fst. exact Eg.
Qed.
Lemma row_delta a : delta (gi_grid row) (gi_xyz row) a = 1.
Proof. unfold delta. destruct a; cbn [row gi_grid gi_xyz lower upper at_ px py pz n_at nx ny nz INR]; rewrite Rabs_pos_eq by lra; field. Qed.
Lemma row_tol : cell_tol row = / 10 ^ 12.
Proof. unfold cell_tol. cbv zeta. rewrite !row_delta. rewrite !(Rmax_left 1 1) by lra. rewrite Rmult_1_l. apply Rmax_left; lra. Qed.
Lemma row_sized : sized row.
Proof.
  assert (K := twelve). split; [intros a; rewrite row_tol, row_delta; lra|]. rewrite !row_delta. unfold maxd. assert (H : 2 ^ 4 <= 2 ^ 1023) by (apply Rle_pow; [lra|lia]).
  assert (H3 : / 2 ^ 52 <= 1) by (rewrite <- Rinv_1; apply Rinv_le_contravar; [lra|apply pow_R1_Rle; lra]). generalize dependent (2 ^ 1023). generalize dependent (/ 2 ^ 52). intros r R s S. nra.
Qed.
Lemma row_low i a : (i < 3)%nat -> low row i a = match a with AX => INR i | _ => 0 end.
Proof. intros H. rewrite low_eq, row_delta. destruct i as [|[|[|i]]]; [..|lia]; destruct a; cbn; ring. Qed.
Lemma row_cell i x : (i < 3)%nat -> in_cell row i x -> INR i <= px x <= INR i + 1 /\ 0 <= py x <= 1 /\ 0 <= pz x <= 1.
Proof.
  intros Hi H. assert (Hx := H AX). assert (Hy := H AY). assert (Hz := H AZ). rewrite row_low, row_delta, row_tol in * by exact Hi. cbn [at_] in *. assert (K := twelve). lra.
Qed.
Lemma row_ptau d : / 10 ^ 12 <= ptau row d <= 2 * / 10 ^ 12.
Proof. assert (H1 := ptau_low row d). assert (H2 := ptau_high row d). rewrite row_tol in *. lra. Qed.
Lemma row_pert i d x : (i < 3)%nat -> in_pert row i d (ptau row d) x -> INR i - 1/10 <= px x <= INR i + 11/10 /\ - (1/10) <= py x <= 11/10 /\ - (1/10) <= pz x <= 11/10.
Proof.
  intros Hi H. assert (Hx := H AX). assert (Hy := H AY). assert (Hz := H AZ). rewrite row_low, row_delta in * by exact Hi. assert (T := row_ptau d). assert (K := twelve).
  destruct d; cbn [at_ off_low off_high] in *; rewrite ?row_tol in *; lra.
Qed.
(** All cells are inside the large tetrahedron; only the middle cell meets the cavity. *)
Lemma row_inner x : -1 <= px x <= 4 -> -1 <= py x <= 2 -> -1 <= pz x <= 2 -> inner o_out 60 x.
Proof. unfold inner, o_out. cbn [px py pz]. lra. Qed.
Lemma row_outer x : px x <= 12/10 \/ 19/10 <= px x -> outer o_in (1/2) x.
Proof.
  unfold outer, o_in. cbn [px py pz]. intros [H|H]; [lra|]. destruct (Rlt_dec (py x - 1/4) 0); [lra|]. destruct (Rlt_dec (pz x - 1/4) 0); [lra|]. right; right; right. lra.
Qed.
Lemma row_nested : nested o_out 60 o_in (1/2).
Proof. intros p H. unfold outer, o_in in H. cbn [px py pz] in H. apply row_inner; lra. Qed.
Lemma end_cell i x : i = 0%nat \/ i = 2%nat -> INR i - 1/10 <= px x <= INR i + 11/10 -> - (1/10) <= py x <= 11/10 -> - (1/10) <= pz x <= 11/10 -> off_surface with_cavity x /\ surrounded with_cavity x.
Proof.
  intros H X Y Z. assert (I : INR i = 0 \/ INR i = 2) by (destruct H as [-> | ->]; cbn [INR]; lra).
  apply hollow_in; [lra|lra|apply row_inner; lra|apply row_outer; lra].
Qed.
Definition cavity : list (tri pt) := tetra o_in (1/2) true.
Lemma cavity_corner q c : In q cavity -> In c (corners_of q) -> 5/4 <= px c <= 7/4 /\ 1/4 <= py c <= 3/4 /\ 1/4 <= pz c <= 3/4.
Proof. intros I J. unfold cavity, o_in in I. faces I; cbn [corners_of P1 P2 P3 In] in J; repeat destruct J as [<-|J]; try contradiction; cbn [px py pz]; lra. Qed.
Section Example.
Variables (g : gquery) (junk : nat -> node RA).
Hypothesis Su : surface (mesh_of with_cavity) g junk (listed with_cavity).
Lemma end_uncut i : i = 0%nat \/ i = 2%nat -> cuts g row i = false.
Proof.
  intros H. destruct (cuts g row i) eqn:E; [|reflexivity]. exfalso. destruct Su as (A & B & C & D & Eg). apply (T_true _ g junk row _ B C D Eg row_sized i) in E as (q & x & I & J & X). rewrite listed_fst in I.
  assert (Hi : (i < 3)%nat) by lia. apply row_cell in X; [|exact Hi]. assert (O := proj1 (end_cell i x H ltac:(lra) ltac:(lra) ltac:(lra))). exact (O q I J).
Qed.
Lemma end_uncut_face i d : i = 0%nat \/ i = 2%nat -> cuts_face g row i d = false.
Proof.
  intros H. destruct (cuts_face g row i d) eqn:E; [|reflexivity]. exfalso. destruct Su as (A & B & C & D & Eg). apply (P_true _ g junk row _ B C D Eg row_sized i d) in E as (q & x & I & J & X). rewrite listed_fst in I.
  assert (Hi : (i < 3)%nat) by lia. apply row_pert in X; [|exact Hi]. assert (O := proj1 (end_cell i x H ltac:(lra) ltac:(lra) ltac:(lra))). exact (O q I J).
Qed.
Definition hit : tri pt := Tri (Pt (5/4 + 1/2) (1/4) (1/4)) (Pt (5/4) (1/4) (1/4 + 1/2)) (Pt (5/4) (1/4 + 1/2) (1/4)).
Lemma hit_in : In hit with_cavity /\ in_triangle hit (Pt (5/4 + 1/2) (1/4) (1/4)).
Proof. split; [right; right; right; right; left; reflexivity|]. exists 1, 0, 0. repeat (split; [lra|]). intros []; cbn [at_ px py pz hit P1 P2 P3]; ring. Qed.
Lemma mid_cut : cuts g row 1 = true.
Proof.
  destruct Su as (A & B & C & D & Eg). apply (T_true _ g junk row _ B C D Eg row_sized 1). exists hit, (Pt (5/4 + 1/2) (1/4) (1/4)). rewrite listed_fst. destruct hit_in as [I J]. split; [exact I|]. split; [exact J|].
  assert (K := twelve). intros a. rewrite row_low, row_delta, row_tol by lia. destruct a; cbn [at_ px py pz INR]; lra.
Qed.
Lemma mid_cut_face d : cuts_face g row 1 d = true.
Proof.
  destruct Su as (A & B & C & D & Eg). apply (P_true _ g junk row _ B C D Eg row_sized 1 d). exists hit, (Pt (5/4 + 1/2) (1/4) (1/4)). rewrite listed_fst. destruct hit_in as [I J]. split; [exact I|]. split; [exact J|].
  assert (K := twelve). assert (T := row_ptau d). intros a. rewrite row_low, row_delta by lia. destruct d, a; cbn [at_ px py pz INR off_low off_high]; rewrite ?row_tol; lra.
Qed.
Lemma asked_row i n d : asked g row i n d -> n = 1%nat /\ ((i = 0%nat /\ d = XF) \/ (i = 2%nat /\ d = XB)).
Proof.
  intros ((Hi & Hn & F) & Ti & Pn). change (num_elements (gi_grid row)) with 3%nat in *.
  assert (i <> 1%nat) by (intros ->; rewrite mid_cut in Ti; discriminate). assert (n = 1%nat) as ->.
  { destruct (Nat.eq_dec n 1) as [->|]; [reflexivity|]. rewrite end_uncut_face in Pn by lia. discriminate. }
  split; [reflexivity|]. destruct i as [|[|[|i]]]; [|lia| |lia]; destruct d; vm_compute in F; destruct F as (F1 & F2 & F3); try discriminate; auto.
Qed.
Lemma mid_box d x : in_box (lower (perturbed row 1 d)) (upper (perturbed row 1 d)) (/ 10 * snap_of (lower (perturbed row 1 d)) (upper (perturbed row 1 d))) x -> 9/10 <= px x <= 21/10 /\ - (1/10) <= py x <= 11/10 /\ - (1/10) <= pz x <= 11/10.
Proof.
  intros H. unfold snap_of in H. rewrite pert_snap in H. apply in_pert_box in H. assert (Hx := H AX). assert (Hy := H AY). assert (Hz := H AZ). rewrite row_low, row_delta in * by lia. assert (T := row_ptau d). assert (K := twelve).
  destruct d; cbn [at_ off_low off_high INR] in *; rewrite ?row_tol in *; lra.
Qed.
Lemma mid_room d m c : 0 <= m <= 1/10 -> 5/4 <= px c <= 7/4 -> 1/4 <= py c <= 3/4 -> 1/4 <= pz c <= 3/4 -> in_box (lower (perturbed row 1 d)) (upper (perturbed row 1 d)) m c.
Proof.
  intros M X Y Z. apply in_pert_box. assert (K := twelve). intros a. rewrite row_low, row_delta by lia. destruct d, a; cbn [at_ INR off_low off_high]; rewrite ?row_tol; lra.
Qed.
Lemma mid_section d s : In s (section (mesh_of with_cavity) g row 1 d) <-> In s cavity.
Proof.
  destruct Su as (A & B & C & D & Eg). assert (Nt' : (Z.of_nat (length (listed with_cavity)) <= 2 ^ 30)%Z) by lia. set (lo := lower (perturbed row 1 d)). set (hi := upper (perturbed row 1 d)).
  assert (W : wide lo hi) by apply (pert_wide row row_sized).
  assert (Sn : 0 <= / 10 * snap_of lo hi <= 1/10) by (unfold snap_of, lo, hi; rewrite pert_snap; assert (T := row_ptau d); assert (K := twelve); lra).
  assert (Ts := tol_small).
  destruct (section_kept (mesh_of with_cavity) g junk (listed with_cavity) A B C Nt' Eg lo hi W) as (m & l & Ec & Vm & H).
  - intros q I. unfold listed in I. apply in_map_iff in I as (q' & <- & I). cbn [fst]. apply in_app_or in I as [I|I].
    + right. intros x J K. apply mid_box in K. apply in_triangle_same in J. destruct (face_points o_out 60 false q' x ltac:(lra) I J) as [N _]. apply N, row_inner; lra.
    + left. intros c J. destruct (cavity_corner q' c I J) as (X & Y & Z). split; [apply mid_room; assumption|].
      assert (R := mid_room d (1/10) c ltac:(lra) X Y Z). intros a. specialize (R a). fold lo hi in R. lra.
  - unfold section, section_of. fold lo hi. rewrite Ec. cbn [and_then]. rewrite (visit_fst _ _ Vm). rewrite in_map_iff. split.
    + intros (q & <- & I). apply H in I as [I J]. unfold listed in I. apply in_map_iff in I as (q' & <- & I). cbn [fst] in *. apply in_app_or in I as [I|I]; [|exact I].
      exfalso. assert (J1 := J (P1 q') ltac:(cbn; tauto)). apply mid_box in J1. destruct (face_points o_out 60 false q' (P1 q') ltac:(lra) I) as [N _]; [|apply N, row_inner; lra].
      exists 1, 0, 0. repeat (split; [lra|]). intros i. ring.
    + intros I. exists (s, Pt 0 0 1). split; [reflexivity|]. apply H. split; [unfold listed; apply in_map_iff; exists s; split; [reflexivity|apply in_or_app; right; exact I]|].
      intros c J. destruct (cavity_corner s c I J) as (X & Y & Z). apply mid_room; assumption.
Qed.
(** The lines of sight from the centres of the two other cells. *)
Lemma six : / 10 ^ 12 <= / 10 ^ 6 /\ / 10 ^ 6 = 1/1000000 /\ zerotol <= 1/1000000.
Proof.
  assert (E : / 10 ^ 6 = 1/1000000) by field. unfold zerotol. split; [|split; [exact E|rewrite <- E]]; apply Rinv_le_contravar; try (apply pow_lt; lra); apply Rle_pow; (lra || lia).
Qed.
Lemma unit_far v n : 0 < dot v v <= 4 -> 1/100 <= Rabs (dot v n) -> 1/200 <= Rabs (dot (unit_dir v) n).
Proof.
  intros V H. assert (Nm : norm v = sqrt (dot v v)) by reflexivity. assert (0 < norm v) by (rewrite Nm; apply sqrt_lt_R0; lra).
  assert (norm v <= 2) by (rewrite Nm; rewrite <- (sqrt_square 2) by lra; apply sqrt_le_1_alt; lra).
  assert (E : dot (unit_dir v) n = dot v n * / norm v) by (unfold unit_dir, dot; cbn [px py pz]; field; lra).
  rewrite E, Rabs_mult. rewrite (Rabs_pos_eq (/ norm v)) by (left; apply Rinv_0_lt_compat; assumption). assert (/ 2 <= / norm v) by (apply Rinv_le_contravar; assumption). nra.
Qed.
Definition view (i : nat) : pt := Pt (INR i + 1/2) (1/2) (1/2).
Lemma view_centre i : (i < 3)%nat -> centre_of row i = view i.
Proof.
  intros H. assert (X := centre_at row i AX). assert (Y := centre_at row i AY). assert (Z := centre_at row i AZ). rewrite row_low, row_delta in * by exact H. cbn [at_] in *. destruct (centre_of row i) as [x y z]. cbn [px py pz] in *. unfold view. f_equal; lra.
Qed.
Lemma abs_far x : x <= - (1/100) \/ 1/100 <= x -> 1/100 <= Rabs x.
Proof. unfold Rabs. destruct (Rcase_abs x); lra. Qed.
Lemma seen i q q' : i = 0%nat \/ i = 2%nat -> In q cavity -> In q' cavity -> 0 < dot (vsub (tri_center q) (view i)) (vsub (tri_center q) (view i)) <= 4 /\ 1/200 <= Rabs (dot (unit_dir (vsub (tri_center q) (view i))) (normal_dir q')).
Proof.
  intros H I J. assert (K : 0 < dot (vsub (tri_center q) (view i)) (vsub (tri_center q) (view i)) <= 4).
  { unfold cavity, o_in in I. destruct H as [-> | ->]; faces I; unfold tri_center, view, vsub, dot; cbn [P1 P2 P3 px py pz INR]; lra. }
  split; [exact K|]. apply unit_far; [exact K|]. apply abs_far. unfold cavity, o_in in I, J. destruct H as [-> | ->]; faces I; faces J; unfold tri_center, view, vsub, normal_dir, cross, vsub, dot; cbn [P1 P2 P3 px py pz INR]; lra.
Qed.
Lemma ends_clear i d : i = 0%nat \/ i = 2%nat -> clear_view (mesh_of with_cavity) g row i 1 d.
Proof.
  intros H q I _. apply mid_section in I. rewrite view_centre by lia. assert (T := row_ptau d). destruct six as (S1 & S2 & S3). split.
  - apply mid_room; [lra|..]; unfold cavity, o_in in I; faces I; unfold tri_center; cbn [P1 P2 P3 px py pz]; lra.
  - intros q' s J _ _. apply mid_section in J. destruct (seen i q q' H I J) as [_ K]. unfold steep. cbn [r_dir]. lra.
Qed.
Lemma area_above q x : 0 < x -> x * x <= dot (normal_dir q) (normal_dir q) -> x / 2 <= tri_area q.
Proof.
  intros X H. unfold tri_area. fold (normal_dir q). assert (E : norm (normal_dir q) = sqrt (dot (normal_dir q) (normal_dir q))) by reflexivity. rewrite E.
  assert (x <= sqrt (dot (normal_dir q) (normal_dir q))) by (rewrite <- (sqrt_square x) by lra; apply sqrt_le_1_alt; exact H). lra.
Qed.
Lemma ends_sure i d : i = 0%nat \/ i = 2%nat -> sure (mesh_of with_cavity) g row i 1 d.
Proof.
  intros H. assert (T := row_ptau d). destruct six as (S1 & S2 & S3). assert (Zp := zerotol_pos). unfold sure. rewrite view_centre by lia.
  set (q := if (i =? 0)%nat then Tri (Pt (5/4) (1/4) (1/4)) (Pt (5/4) (1/4 + 1/2) (1/4)) (Pt (5/4) (1/4) (1/4 + 1/2)) else hit).
  assert (I : In q cavity) by (unfold q; destruct H as [-> | ->]; [right; right; right; left; reflexivity | left; reflexivity]).
  exists q. split; [apply mid_section; exact I|]. split; [split|].
  - unfold large. assert (A : 1/5/2 <= tri_area q); [|lra]. apply area_above; [lra|]. unfold q, hit. destruct H as [-> | ->]; cbn [Nat.eqb]; unfold normal_dir, dot, cross, vsub; cbn [P1 P2 P3 px py pz]; lra.
  - destruct (seen i q q H I I) as [_ K]. lra.
  - intros q' J (t & u & v & (_ & E & (_ & A2 & A3 & A4) & A5) & Ht & G). apply mid_section in J. destruct (seen i q q H I I) as [V _].
    assert (Np : 0 < norm (vsub (tri_center q) (view i))) by (apply sqrt_lt_R0; apply V). rewrite along_unit in E by lra. revert E.
    generalize (t / norm (vsub (tri_center q) (view i))). intros s E. assert (Ex := f_equal px E). assert (Ey := f_equal py E). assert (Ez := f_equal pz E). clear E V Np I.
    unfold q, hit in *. destruct H as [-> | ->]; cbn [Nat.eqb] in *; unfold cavity, o_in in J; faces J; unfold between, plane_point, tri_center, view, vadd, vscale, vsub in *; cbn [P1 P2 P3 px py pz INR] in *; lra.
Qed.
Lemma row_clear_of_ends : clear_of_ends (gi_grid row) (cuts_face g row).
Proof.
  intros i d Hi E. change (num_elements (gi_grid row)) with 3%nat in Hi. apply end_uncut_face. destruct i as [|[|[|i]]]; [auto| |auto|lia]. exfalso. vm_compute in E. lia.
Qed.
Lemma row_ok : grid_ok (gi_grid row).
Proof. repeat split; cbn; lia. Qed.
(** All hypotheses hold; the two outer cells are inside the surface, the one with the cavity is trimmed. *)
Lemma row_classified t : (0 < t)%nat -> exists st, classified (mesh_of with_cavity) g junk row t st /\ st 0%nat = Inside /\ st 1%nat = Trimmed /\ st 2%nat = Inside.
Proof.
  intros Ht. assert (C := classify_rel_total (gi_grid row) (cuts g row) (cuts_face g row) (votes (mesh_of with_cavity) g junk row) t row_ok Ht).
  destruct (classify_trimmed (gi_grid row) _ _ _ t _ row_ok Ht C) as (st & E & K). rewrite E in C. exists st. split; [exact C|].
  assert (Ex : forall i, i = 0%nat \/ i = 2%nat -> st i = Inside).
  { intros i Hi. assert (L3 : (i < 3)%nat) by lia.
    assert (N : region g row i i) by apply rt_refl.
    assert (An : exists d, asked g row i 1 d).
    { destruct Hi as [-> | ->]; [exists XF | exists XB]; (split; [split; [cbn; lia|split; [cbn; lia|vm_compute; auto]]|]); (split; [apply end_uncut; auto | apply mid_cut_face]). }
    destruct An as (d & An). assert (Cl := hollow_closed o_out 60 o_in (1/2)). assert (Ow := hollow_outward o_out 60 o_in (1/2) ltac:(lra) ltac:(lra) row_nested). fold with_cavity in Cl, Ow.
    apply (C70_exact (mesh_of with_cavity) g junk (listed with_cavity) row t st Su row_sized row_ok Ht row_clear_of_ends); rewrite ?listed_fst; try assumption.
    - apply end_uncut; exact Hi.
    - intros j n d' _ A. destruct (asked_row j n d' A) as [-> B]. split; [apply ends_clear | apply ends_sure]; tauto.
    - exists i, 1%nat, d. auto.
    - rewrite view_centre by exact L3. refine (proj2 (end_cell i _ Hi _ _ _)); unfold view; cbn [px py pz]; lra. }
  split; [apply Ex; auto|]. split; [|apply Ex; auto]. apply K; [cbn; lia | apply mid_cut].
Qed.
End Example.

Example C70_example : forall junk t, (0 < t)%nat -> exists g st, surface (mesh_of with_cavity) g junk (listed with_cavity) /\ sized row /\ grid_ok (gi_grid row) /\ clear_of_ends (gi_grid row) (cuts_face g row) /\
  closed (map fst (listed with_cavity)) /\ outward (map fst (listed with_cavity)) /\ classified (mesh_of with_cavity) g junk row t st /\
  (forall i n d, asked g row i n d -> clear_view (mesh_of with_cavity) g row i n d /\ sure (mesh_of with_cavity) g row i n d) /\ asked g row 0 1 XF /\
  st 0%nat = Inside /\ st 1%nat = Trimmed /\ st 2%nat = Inside.
Proof.
  intros junk t Ht. destruct (surface_of junk with_cavity (or_intror eq_refl)) as (g & Su). destruct (row_classified g junk Su t Ht) as (st & A & B & C & D). exists g, st.
  split; [exact Su|]. split; [apply row_sized|]. split; [apply row_ok|]. split; [apply (row_clear_of_ends g junk Su)|]. rewrite listed_fst.
  split; [apply hollow_closed|]. split; [apply hollow_outward; [lra|lra|apply row_nested]|]. split; [exact A|]. split.
  - intros i n d K. destruct (asked_row g junk Su i n d K) as [-> M]. split; [apply (ends_clear g junk Su)|apply (ends_sure g junk Su)]; tauto.
  - split; [|auto]. split; [split; [cbn; lia|split; [cbn; lia|vm_compute; auto]]|]. split; [apply (end_uncut g junk Su); auto | apply (mid_cut_face g junk Su)].
Qed.

(** Without a trimmed neighbour there is no vote, and the region is taken to be outside, also if it is inside the surface: here the
    whole grid is inside a large tetrahedron. *)
Theorem C70_no_votes_refuted : forall junk, ~ (forall src g L gi t st, surface src g junk L -> sized gi -> grid_ok (gi_grid gi) -> (0 < t)%nat -> clear_of_ends (gi_grid gi) (cuts_face g gi) ->
  closed (map fst L) -> outward (map fst L) -> classified src g junk gi t st -> (forall i n d, asked g gi i n d -> clear_view src g gi i n d /\ sure src g gi i n d) ->
  forall i, (i < num_elements (gi_grid gi))%nat -> surrounded (map fst L) (centre_of gi i) -> cuts g gi i = false -> st i = Inside).
Proof.
  intros junk F. destruct (surface_of junk shell (or_introl eq_refl)) as (g & Su).
  assert (Fa : forall i d, (i < 3)%nat -> cuts_face g row i d = false).
  { intros i d Hi. destruct (cuts_face g row i d) eqn:E; [|reflexivity]. exfalso. destruct Su as (A & B & C & D & Eg). apply (P_true _ g junk row _ B C D Eg row_sized i d) in E as (q & x & I & J & X). rewrite listed_fst in I.
    apply row_pert in X; [|exact Hi]. assert (INR i <= 2) by (destruct i as [|[|[|i]]]; [cbn; lra..|lia]). assert (0 <= INR i) by apply pos_INR.
    refine (inner_off o_out 60 false x _ _ q I J); [lra|apply row_inner; lra]. }
  assert (Fc : forall i, (i < 3)%nat -> cuts g row i = false).
  { intros i Hi. destruct (cuts g row i) eqn:E; [|reflexivity]. exfalso. destruct Su as (A & B & C & D & Eg). apply (T_true _ g junk row _ B C D Eg row_sized i) in E as (q & x & I & J & X). rewrite listed_fst in I.
    apply row_cell in X; [|exact Hi]. assert (INR i <= 2) by (destruct i as [|[|[|i]]]; [cbn; lra..|lia]). assert (0 <= INR i) by apply pos_INR.
    refine (inner_off o_out 60 false x _ _ q I J); [lra|apply row_inner; lra]. }
  assert (Ce : clear_of_ends (gi_grid row) (cuts_face g row)) by (intros i d Hi _; apply Fa, Hi).
  assert (Cl : closed (map fst (listed shell))) by (rewrite listed_fst; apply tetra_closed).
  assert (Ow : outward (map fst (listed shell))) by (rewrite listed_fst; apply tetra_outward; lra).
  assert (C := classify_rel_total (gi_grid row) (cuts g row) (cuts_face g row) (votes (mesh_of shell) g junk row) 1 row_ok Nat.lt_0_1).
  destruct (classify_trimmed (gi_grid row) _ _ _ 1%nat _ row_ok Nat.lt_0_1 C) as (st & E & K). rewrite E in C.
  destruct (state_sum (mesh_of shell) g junk (listed shell) row 1 st Su row_sized row_ok Nat.lt_0_1 Ce C 0%nat ltac:(cbn; lia) (Fc 0%nat ltac:(lia))) as (comp & (_ & R) & S).
  assert (Z : (0 <? zsum (face_votes (gi_grid row) (cuts_face g row) (votes (mesh_of shell) g junk row)) comp)%Z = false).
  { apply Z.ltb_ge. destruct (Z_le_gt_dec (zsum (face_votes (gi_grid row) (cuts_face g row) (votes (mesh_of shell) g junk row)) comp) 0) as [G|G]; [exact G|]. exfalso.
    apply Z.gt_lt in G. apply zsum_positive in G as (j & Ij & Vj). apply votes_positive in Vj as (d & n & N & Pn & _). apply R in Ij. destruct (region_cell g row 0%nat j ltac:(cbn; lia) (Fc 0%nat ltac:(lia)) Ij) as [Hj _].
    apply (neighbour_iff (gi_grid row) row_ok 1 Nat.lt_0_1 j d n Hj) in N. destruct N as (_ & Hn & _). rewrite Fa in Pn by exact Hn. discriminate. }
  rewrite Z in S. rewrite (F (mesh_of shell) g (listed shell) row 1%nat st Su row_sized row_ok Nat.lt_0_1 Ce Cl Ow C) in S; [discriminate|..].
  - intros i n d ((_ & Hn & _) & _ & Pn). rewrite Fa in Pn by exact Hn. discriminate.
  - cbn; lia.
  - rewrite listed_fst, view_centre by lia. apply inner_surrounded; [lra|]. apply row_inner; unfold view; cbn [px py pz INR]; lra.
  - apply Fc; lia.
Qed.
Print Assumptions C70_no_votes_refuted.
