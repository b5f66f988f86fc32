(** The geometric tests of the flood fill are defined and right for closed surfaces. *)
From Coq Require Import Reals List Arith Bool ZArith Relations Lia Lra Psatz.
From Verif Require Import Geo GridModel GridSpec GridProofs GridGeoModel GridStoreModel MappingModel TrimmedQuadModel MeshModel MeshProofs MeshGeoModel MeshGeoProofs MeshBoxProofs MeshSumProofs MeshProps ClipModel SearchModel GeoQueryModel SatMain GeoQueryProofs RayProofs CastProofs GeoQueryProps
  ClipResult ClipProps ConditionProofs ParitySpec ParityPath ParityCast ParityProps TrimSearchModel TrimSearchGeo FloodModel FloodSpec FloodGeoModel FloodGeoSpec FloodSight FloodGeoCells FloodSections.
Import ListNotations.
Local Open Scope R_scope.

Section Tests.
Variable src : mesh pt.
Variable g : gquery.
Variable junk : nat -> node RA.
Variable gi : indexer.
Variable L : list (tri pt * pt).
Notation gr := (gi_grid gi).
Notation dl := (delta (gi_grid gi) (gi_xyz gi)).
Notation tau := (cell_tol gi).
Notation tris := (map fst L).
Hypothesis Wf : well_formed src.
Hypothesis VL : visit_n src = Some L.
Hypothesis Ne : L <> [].
Hypothesis Nb : (Z.of_nat (length L) <= 2 ^ 26)%Z.
Hypothesis Eg : make_query junk (map fst L) true = Some g.
Hypothesis Sz : sized gi.
Notation T := (cuts g gi).
Notation P := (cuts_face g gi).
Notation V := (votes src g junk gi).

Lemma Nt : (Z.of_nat (length L) <= 2 ^ 30)%Z.
Proof. assert (2 ^ 26 <= 2 ^ 30)%Z by (apply Z.pow_le_mono_r; lia). lia. Qed.
Lemma tris_ne : tris <> [].
Proof. destruct L; [congruence | discriminate]. Qed.
Lemma cell_cut_ok i : exists b, cell_cut g gi i = Some b /\ (b = true <-> exists q x, In q tris /\ in_triangle q x /\ in_cell gi i x).
Proof.
  destruct (do_intersect_ok junk tris true g (lower (box_xyz gi i)) (upper (box_xyz gi i)) (/ 10 ^ 12)) as (b & E & H).
  - rewrite map_length. exact Nt.
  - exact tris_ne.
  - exact Eg.
  - assert (K := twelve). lra.
  - intros a. rewrite cell_snap, high_eq. assert (D := dl_big gi Sz a). assert (X := tau_pos gi). unfold low. lra.
  - exists b. split; [exact E|]. rewrite H, cell_snap. split; intros (q & x & I & J & K); exists q, x; (split; [exact I|]); (split; [exact J|]); apply in_cell_box; exact K.
Qed.
Lemma face_cut_ok n d : exists b, face_cut g gi n d = Some b /\ (b = true <-> exists q x, In q tris /\ in_triangle q x /\ in_pert gi n d (ptau gi d) x).
Proof.
  destruct (do_intersect_ok junk tris true g (lower (perturbed gi n d)) (upper (perturbed gi n d)) (/ 10 ^ 12)) as (b & E & H).
  - rewrite map_length. exact Nt.
  - exact tris_ne.
  - exact Eg.
  - assert (K := twelve). lra.
  - intros a. rewrite pert_snap, pert_low, pert_high. assert (D := dl_big gi Sz a). assert (X := tau_pos gi). assert (Y := ptau_high gi d). destruct d, a; cbn [off_low off_high]; lra.
  - exists b. split; [exact E|]. rewrite H, pert_snap. split; intros (q & x & I & J & K); exists q, x; (split; [exact I|]); (split; [exact J|]); apply in_pert_box; exact K.
Qed.
Lemma T_true i : T i = true <-> exists q x, In q tris /\ in_triangle q x /\ in_cell gi i x.
Proof. unfold cuts. destruct (cell_cut_ok i) as (b & -> & H). exact H. Qed.
Lemma P_true n d : P n d = true <-> exists q x, In q tris /\ in_triangle q x /\ in_pert gi n d (ptau gi d) x.
Proof. unfold cuts_face. destruct (face_cut_ok n d) as (b & -> & H). exact H. Qed.
Lemma T_false i x : T i = false -> in_cell gi i x -> off_surface tris x.
Proof. intros H C q I J. assert (T i = true) by (apply T_true; exists q, x; auto). congruence. Qed.
Lemma P_false n d x : P n d = false -> in_pert gi n d (ptau gi d) x -> off_surface tris x.
Proof. intros H C q I J. assert (P n d = true) by (apply P_true; exists q, x; auto). congruence. Qed.

Lemma reverse_nb d i j : nb gr d i j -> nb gr (reverse_dir d) j i.
Proof. intros (A & B & C). split; [exact B|]. split; [exact A|]. destruct d; cbn [reverse_dir face_nb] in *; destruct C as (C1 & C2 & C3); repeat split; lia. Qed.
Lemma rev_rev d : reverse_dir (reverse_dir d) = d.
Proof. destruct d; reflexivity. Qed.
Lemma symmetric : symmetric_faces gr T P.
Proof.
  assert (H : forall d i j, nb gr d i j -> T i = false -> T j = false -> P j d = true -> P i (reverse_dir d) = true).
  { intros d i j N Ti Tj H. apply P_true in H as (q & x & I & J & K). destruct (swap_cover gi Sz d i j x N K) as [C|[C|C]].
    - destruct (T_false i x Ti C q I J).
    - destruct (T_false j x Tj C q I J).
    - apply P_true. exists q, x. rewrite ptau_reverse. auto. }
  intros d i j N Ti Tj. destruct (P j d) eqn:E; symmetry; [exact (H d i j N Ti Tj E)|]. destruct (P i (reverse_dir d)) eqn:E'; [|reflexivity].
  assert (K := H (reverse_dir d) j i (reverse_nb d i j N) Tj Ti E'). rewrite rev_rev in K. congruence.
Qed.

Hypothesis Cl : closed tris.
Lemma cell_side i x : T i = false -> in_cell gi i x -> off_surface tris x /\ (surrounded tris x <-> surrounded tris (centre_of gi i)).
Proof.
  intros Ti C. split; [exact (T_false i x Ti C)|]. apply C68_same_side; [exact Cl|]. intros s S. apply (T_false i _ Ti). intros a. specialize (C a).
  assert (X : at_ a (between x (centre_of gi i) s) = at_ a x + s * (at_ a (centre_of gi i) - at_ a x)) by (destruct a; reflexivity). rewrite X, centre_at.
  assert (D := dl_big gi Sz a). assert (Tp := tau_pos gi). nra.
Qed.
Lemma link_side i j : linked gr T P i j -> surrounded tris (centre_of gi i) <-> surrounded tris (centre_of gi j).
Proof.
  intros (d & N & Ti & Tj & H). apply C68_same_side; [exact Cl|]. intros s S.
  destruct (link_cover gi Sz d i j (between (centre_of gi i) (centre_of gi j) s) N) as [C|C].
  - intros a. exists s. split; [exact S|].
    assert (X : at_ a (between (centre_of gi i) (centre_of gi j) s) = at_ a (centre_of gi i) + s * (at_ a (centre_of gi j) - at_ a (centre_of gi i))) by (destruct a; reflexivity).
    rewrite X, !centre_at, (nb_low gi d i j a N). ring.
  - exact (T_false i _ Ti C).
  - exact (P_false j d _ H C).
Qed.
Lemma region_side i j : connected gr T P i j -> surrounded tris (centre_of gi i) <-> surrounded tris (centre_of gi j).
Proof. intros H. induction H as [x y H|x|x y z _ IH1 _ IH2]; [exact (link_side x y H)|reflexivity|tauto]. Qed.

(** *** Votes *)
Lemma pert_wide n d : wide (lower (perturbed gi n d)) (upper (perturbed gi n d)).
Proof. intros a. unfold snap_of. rewrite pert_snap, pert_low, pert_high. assert (D := dl_big gi Sz a). assert (X := tau_pos gi). assert (Y := ptau_high gi d). destruct d, a; cbn [off_low off_high]; lra. Qed.
Lemma section_ok n d : exists m (r : list (tri pt * pt)), clip_cell src g (lower (perturbed gi n d)) (upper (perturbed gi n d)) = Some m /\ section_of src g (perturbed gi n d) = Some (map fst r) /\
  (forall s, In s r -> exists q, In q L /\ piece_of (fst s) (fst q) /\ forall c, In c (corners_of (fst s)) -> in_grown (lower (perturbed gi n d)) (upper (perturbed gi n d)) plane_tol c) /\
  (forall q x, In q L -> MeshGeoProofs.in_triangle (fst q) x -> (forall a, low gi n a + off_low gi d a + / 10 * ptau gi d < at_ a x < low gi n a + dl a + off_high gi d a - / 10 * ptau gi d) ->
     exists s, In s r /\ MeshGeoProofs.in_triangle (fst s) x).
Proof.
  destruct (clip_cell_ok src g junk L Wf VL Ne Nt Eg (lower (perturbed gi n d)) (upper (perturbed gi n d))) as (m & E & r & Om & Vm & Pc & Cv & _).
  - apply pert_wide.
  - exists m, r. split; [exact E|]. split; [unfold section_of; rewrite E; cbn [and_then]; apply visit_fst, Vm|]. split.
    + intros s I. destruct (Pc s I) as (q & Iq & _ & _ & Hq & Hc). exists q. auto.
    + intros q x I J K. destruct (Cv q x I J) as (s & Is & Js & _); [|exists s; auto]. intros a. unfold snap_of. rewrite pert_snap, pert_low, pert_high. exact (K a).
Qed.
Definition section (n : nat) (d : dir) : list (tri pt) := match section_of src g (perturbed gi n d) with Some s => s | None => [] end.
Lemma Ls n d : (Z.of_nat (length (section n d)) <= 2 ^ 30)%Z.
Proof.
  unfold section, section_of. destruct (clip_cell src g _ _) as [m|] eqn:E; [|cbn; lia]. cbn [and_then]. destruct (visit (cm_mesh m)) as [s|] eqn:V; [|cbn; lia].
  assert (C := section_count src g junk L VL Ne Nt Eg _ _ m (pert_wide n d) E). apply visit_seq in V as [V _]. rewrite V. change (2 ^ 30)%Z with (16 * 2 ^ 26)%Z. lia.
Qed.
Lemma face_vote_ok i n d : exists b, face_vote src g junk gi i n d = Some b /\ on_bounded_side junk (section n d) (lower (perturbed gi n d)) (upper (perturbed gi n d)) (centre_of gi i) = Some b.
Proof.
  destruct (section_ok n d) as (m & r & _ & E & _). unfold face_vote. assert (X := Ls n d). unfold section in *. rewrite E in *. cbn [and_then].
  destruct (on_bounded_side_ok junk (map fst r) (lower (perturbed gi n d)) (upper (perturbed gi n d)) (centre_of gi i) X) as (g' & b & _ & H & _). exists b. split; exact H.
Qed.
Lemma at_norm a v : norm v = 1 -> - 1 <= at_ a v <= 1.
Proof.
  intros H. destruct v as [x y z]. unfold norm, dot in H. cbn [px py pz] in H. assert (K : x * x + y * y + z * z = 1). { apply (f_equal (fun r => r * r)) in H. rewrite sqrt_sqrt in H by nra. lra. }
  destruct a; cbn [at_ px py pz]; split; nra.
Qed.
Lemma zero_small a : zerotol <= tau / 100 /\ zerotol * dl a <= tau / 100.
Proof.
  assert (E : zerotol = / 10 ^ 12 / 100) by (unfold zerotol; field). assert (X := tau_ge gi). assert (Y := tau_dl gi a). rewrite E. split; [lra|].
  replace (/ 10 ^ 12 / 100 * dl a) with ((dl a * / 10 ^ 12) / 100) by (field; apply pow_nonzero; lra). lra.
Qed.
Lemma comb_low a b c x y z lo hi e : 0 <= e <= 1/100 -> - e <= a -> - e <= b -> - e <= c -> a + b + c = 1 -> lo <= x <= hi -> lo <= y <= hi -> lo <= z <= hi -> lo - 3 * (e * (hi - lo)) <= a * x + b * y + c * z <= hi + 3 * (e * (hi - lo)).
Proof.
  intros E A B C S X Y Z. assert (c = 1 - a - b) as -> by lra.
  assert (G : forall k w, - e <= k -> 0 <= w <= hi - lo -> - (e * (hi - lo)) <= k * w). { intros k w Hk Hw. assert (0 <= (k + e) * w) by (apply Rmult_le_pos; lra). assert (0 <= e * (hi - lo - w)) by (apply Rmult_le_pos; lra). lra. }
  assert (G1 := G a (x - lo) A ltac:(lra)). assert (G2 := G b (y - lo) B ltac:(lra)). assert (G3 := G (1 - a - b) (z - lo) C ltac:(lra)).
  assert (K1 := G a (hi - x) A ltac:(lra)). assert (K2 := G b (hi - y) B ltac:(lra)). assert (K3 := G (1 - a - b) (hi - z) C ltac:(lra)). split; lra.
Qed.
Lemma plane_at q u v a : at_ a (plane_point q u v) = (1 - u - v) * at_ a (P1 q) + u * at_ a (P2 q) + v * at_ a (P3 q).
Proof. destruct a; unfold plane_point, vadd, vscale, vsub; cbn [at_ px py pz]; ring. Qed.
Lemma far i j d e s : nb gr d i j -> (forall c, In c (corners_of s) -> in_grown (lower (perturbed gi j d)) (upper (perturbed gi j d)) plane_tol c) -> norm e = 1 -> ~ CastProofs.touches (Ray (centre_of gi i) e) s.
Proof.
  intros N C Ne' (t & u & v & (_ & E & (A1 & A2 & A3 & A4) & A5) & A6). destruct (pert_away gi Sz d i j N) as (a & H). set (x := plane_point s u v) in *.
  assert (Xa : at_ a x = low gi i a + dl a / 2 + t * at_ a e). { rewrite <- E. unfold along. cbn [r_origin r_dir]. rewrite <- centre_at. destruct a; reflexivity. }
  assert (Te := at_norm a e Ne'). assert (T0 := tau_pos gi). destruct (zero_small a) as [Z1 Z2]. assert (Zp := zerotol_pos). assert (Z3 := twelve).
  assert (Tt : - zerotol <= t * at_ a e <= zerotol) by (split; nra).
  assert (Cc : forall c, In c (corners_of s) -> at_ a (lower (perturbed gi j d)) - plane_tol <= at_ a c <= at_ a (upper (perturbed gi j d)) + plane_tol) by (intros c I; exact (C c I a)).
  assert (Wd : at_ a (upper (perturbed gi j d)) - at_ a (lower (perturbed gi j d)) <= dl a + 10 * tau) by (rewrite pert_low, pert_high; destruct d, a; cbn [off_low off_high]; lra).
  assert (Pp : plane_tol = 10 * zerotol) by reflexivity.
  assert (B := comb_low (1 - u - v) u v (at_ a (P1 s)) (at_ a (P2 s)) (at_ a (P3 s)) _ _ zerotol ltac:(unfold zerotol in *; split; [lra|]; replace (/ 10 ^ 14) with (/ 10 ^ 12 / 100) by field; lra) ltac:(lra) A2 A3 ltac:(ring)
    (Cc (P1 s) ltac:(cbn; tauto)) (Cc (P2 s) ltac:(cbn; tauto)) (Cc (P3 s) ltac:(cbn; tauto))).
  rewrite <- plane_at in B. fold x in B.
  assert (Sm : zerotol * (at_ a (upper (perturbed gi j d)) + plane_tol - (at_ a (lower (perturbed gi j d)) - plane_tol)) <= tau / 10).
  { eapply Rle_trans; [apply Rmult_le_compat_l; [lra|]; apply (Rle_trans _ (dl a + 10 * tau + 20 * zerotol)); [rewrite Pp; lra|apply Rle_refl]|].
    assert (zerotol <= 1/1000) by (unfold zerotol; replace (/ 10 ^ 14) with (/ 10 ^ 12 / 100) by field; lra). nra. }
  destruct H as [H|H]; specialize (H x); rewrite Pp in *; lra.
Qed.
Lemma norm_sum x y z : norm (Pt x y z) <= Rabs x + Rabs y + Rabs z.
Proof.
  unfold norm, dot. cbn [px py pz]. assert (A := Rabs_pos x). assert (B := Rabs_pos y). assert (C := Rabs_pos z).
  rewrite <- (sqrt_Rsqr (Rabs x + Rabs y + Rabs z)) by lra. apply sqrt_le_1_alt. unfold Rsqr. rewrite <- (Rabs_pos_eq (x * x)), <- (Rabs_pos_eq (y * y)), <- (Rabs_pos_eq (z * z)) by nra. rewrite !Rabs_mult. nra.
Qed.
Lemma near_centre i j d c : nb gr d i j -> in_pert gi j d (ptau gi d) c -> norm (vsub c (centre_of gi i)) < maxd.
Proof.
  intros N C. assert (H : forall a, Rabs (at_ a (vsub c (centre_of gi i))) <= 2 * dl a).
  { intros a. assert (E : at_ a (vsub c (centre_of gi i)) = at_ a c - at_ a (centre_of gi i)) by (destruct a; reflexivity). rewrite E, centre_at. specialize (C a). rewrite (nb_low gi d i j a N) in C.
    assert (D := dl_big gi Sz a). assert (X := tau_pos gi). assert (Y := ptau_low gi d). apply Rabs_le. destruct d, a; cbn [off_low off_high step] in C; lra. }
  destruct (vsub c (centre_of gi i)) as [x y z] eqn:E. assert (Hx := H AX). assert (Hy := H AY). assert (Hz := H AZ). cbn [at_ px py pz] in *. assert (K := norm_sum x y z).
  assert (M := proj2 Sz). assert (Dx := dl_big gi Sz AX). assert (Dy := dl_big gi Sz AY). assert (Dz := dl_big gi Sz AZ). assert (X := tau_pos gi). lra.
Qed.

Hypothesis Ow : outward tris.
Definition clear_view (i n : nat) (d : dir) : Prop := well_seen (section n d) (lower (perturbed gi n d)) (upper (perturbed gi n d)) (centre_of gi i) (ptau gi d).
Definition sure (i n : nat) (d : dir) : Prop := decisive (section n d) (centre_of gi i) (ptau gi d).
Lemma vote_right i j d : nb gr d i j -> T i = false -> clear_view i j d ->
  (V i j d = true -> surrounded tris (centre_of gi i)) /\ (surrounded tris (centre_of gi i) -> sure i j d -> V i j d = true).
Proof.
  intros N Ti Sh. unfold votes. destruct (face_vote_ok i j d) as (b & -> & Eb). cbn [truth].
  destruct (section_ok j d) as (m & r & _ & Es & Pc & Cv). assert (X := Ls j d). unfold clear_view, sure, section in *. rewrite Es in *.
  destruct (make_query_ok junk (map fst r) false X) as (g' & Eg' & _).
  apply (section_right tris (map fst r) junk g' (lower (perturbed gi j d)) (upper (perturbed gi j d)) (centre_of gi i) (ptau gi d)
    (fun x => forall a, low gi j a + off_low gi d a + / 10 * ptau gi d < at_ a x < low gi j a + dl a + off_high gi d a - / 10 * ptau gi d) Cl Ow X Eg').
  - intros s I. apply in_map_iff in I as (s' & <- & I). destruct (Pc s' I) as (q & Iq & Hq & _). exists (fst q). split; [apply in_map, Iq | exact Hq].
  - intros q x I J K. apply in_map_iff in I as (q' & <- & I). destruct (Cv q' x I) as (s & Is & Js); [apply in_triangle_same, J|exact K|]. exists (fst s). split; [apply in_map, Is | apply in_triangle_same, Js].
  - intros c s C S. apply in_pert_box in C. destruct (sight_cover gi Sz d i j c s (between (centre_of gi i) c s) N C S) as [K|K].
    + intros a. rewrite <- centre_at. destruct a; reflexivity.
    + left. exact (T_false i _ Ti K).
    + right. exact K.
  - exact (T_false i _ Ti (centre_in_cell gi Sz i)).
  - intros e s I Hn. apply in_map_iff in I as (s' & <- & I). destruct (Pc s' I) as (q & _ & _ & Hc). exact (far i j d e (fst s') N Hc Hn).
  - intros c C. apply in_pert_box in C. exact (near_centre i j d c N C).
  - exact Sh.
  - exact Eb.
  - rewrite pert_snap. reflexivity.
Qed.
End Tests.
