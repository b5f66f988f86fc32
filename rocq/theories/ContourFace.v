(** Proofs about the triangulation of a face: it never fails if the vertices keep away from the upper boundary, and what it
    consists of in every case. *)
From Coq Require Import Reals List Arith Bool Permutation Lia Lra Psatz.
From Verif Require Import Geo MappingModel MeshModel MeshProofs MeshGeoModel MeshGeoProofs ClipModel ClipMeshProofs GeoQueryModel SatMain DomainModel DomainProps ContourModel ContourProofs.
Import ListNotations.
Local Open Scope R_scope.

Section Face.
Variable pl : plane.
Notation tol := (snap pl).

(** *** The target of a split *)
Definition on_edge2 (ab : point2 * point2) (q : point2) : Prop :=
  fst (fst ab) + tol <= fst q <= fst (snd ab) - tol /\ snd q = line_at (fst ab) (snd ab) (fst q).
(** The edges that a vertex can split. *)
Definition eligible (up : bool) (p : point2) (ab : point2 * point2) : Prop :=
  fst (fst ab) + tol <= fst p <= fst (snd ab) - tol /\ tol < height up p (line_at (fst ab) (snd ab) (fst p)).
Definition dist_to (up : bool) (p : point2) (ab : point2 * point2) : R := height up p (line_at (fst ab) (snd ab) (fst p)).
(** The edges of the other orientation that can hide an edge. *)
Definition hides (up : bool) (p : point2) (ab : point2 * point2) : Prop :=
  fst (fst ab) - tol < fst p < fst (snd ab) + tol /\ tol < dist_to up p ab.

Lemma barrier_spec up p l : barrier pl up p l <= 10 ^ 15 /\ (forall ab, In ab l -> hides up p ab -> barrier pl up p l <= dist_to up p ab) /\
  (barrier pl up p l = 10 ^ 15 \/ exists ab, In ab l /\ hides up p ab /\ barrier pl up p l = dist_to up p ab).
Proof.
  unfold barrier. set (f := fun cur ab => _). set (c := 10 ^ 15).
  assert (G : forall l cur, fold_left f l cur <= cur /\ (forall ab, In ab l -> hides up p ab -> fold_left f l cur <= dist_to up p ab) /\
    (fold_left f l cur = cur \/ exists ab, In ab l /\ hides up p ab /\ fold_left f l cur = dist_to up p ab)).
  { clear. induction l as [|ab l IH]; intros cur; [cbn; split; [lra|split; [intros ? []|left; reflexivity]]|]. cbn [fold_left].
    destruct (IH (f cur ab)) as (I1 & I2 & I3).
    assert (F : f cur ab <= cur /\ (hides up p ab -> f cur ab <= dist_to up p ab) /\ (f cur ab = cur \/ hides up p ab /\ f cur ab = dist_to up p ab)).
    { unfold f, hides. cbv zeta. change (height up p (line_at (fst ab) (snd ab) (fst p))) with (dist_to up p ab).
      destruct (rltb (fst (fst ab) - tol) (fst p)) eqn:E1, (rltb (fst p) (fst (snd ab) + tol)) eqn:E2, (rltb (dist_to up p ab) cur) eqn:E3, (rltb tol (dist_to up p ab)) eqn:E4; cbn [andb];
      repeat match goal with H : rltb _ _ = true |- _ => apply rltb_true in H | H : rltb _ _ = false |- _ => apply rltb_false in H end;
      (split; [lra|split; [intros [[? ?] ?]; unfold point2 in *; lra|]]); first [left; reflexivity | right; (split; [|reflexivity]); unfold point2 in *; repeat split; assumption]. }
    destruct F as (F1 & F2 & F3). split; [lra|]. split.
    - intros x [<-|I] H; [specialize (F2 H); lra|exact (I2 x I H)].
    - destruct I3 as [E|(x & I & H & E)]; [|right; exists x; split; [right; exact I|auto]]. rewrite E. destruct F3 as [E'|[H E']]; [left; exact E'|right; exists ab; split; [left; reflexivity|auto]]. }
  exact (G l c).
Qed.
Lemma split_target_spec up p l : forall i cur best, exists fin,
  fin <= cur /\ (forall ab, In ab l -> eligible up p ab -> fin - zerotol <= dist_to up p ab) /\
  ((split_target pl up p i l cur best = best /\ fin = cur) \/
   exists j ab, nth_error l j = Some ab /\ split_target pl up p i l cur best = Some (i + j, (fst p, line_at (fst ab) (snd ab) (fst p)))%nat /\ eligible up p ab /\ dist_to up p ab = fin /\ fin < cur - zerotol).
Proof.
  assert (Z : 0 < zerotol) by (unfold zerotol; apply Rinv_0_lt_compat, pow_lt; lra).
  induction l as [|[a b] l IH]; intros i cur best.
  { exists cur. split; [lra|]. split; [intros ? []|]. left. split; reflexivity. }
  cbn [split_target]. fold (dist_to up p (a, b)).
  change (height up p (line_at a b (fst p))) with (dist_to up p (a, b)).
  destruct (rleb (fst a + tol) (fst p)) eqn:E1, (rleb (fst p) (fst b - tol)) eqn:E2, (rltb (dist_to up p (a, b)) (cur - zerotol)) eqn:E3, (rltb tol (dist_to up p (a, b))) eqn:E4; cbn [andb].
  1: { apply rleb_true in E1, E2. apply rltb_true in E3, E4. destruct (IH (S i) (dist_to up p (a, b)) (Some (i, (fst p, line_at a b (fst p))))) as (fin & L & A & R).
    exists fin. split; [lra|]. split.
    - intros ab [<-|I] H; [lra|exact (A ab I H)].
    - right. destruct R as [[R Ef]|(j & ab & Ej & R & El & Ed & Lt)].
      + exists 0%nat, (a, b). split; [reflexivity|]. split; [rewrite R, Nat.add_0_r; reflexivity|]. split; [split; [cbn [fst snd]; lra|exact E4]|]. split; [symmetry; exact Ef|lra].
      + exists (S j), ab. split; [exact Ej|]. split; [rewrite R; f_equal; f_equal; lia|]. split; [exact El|]. split; [exact Ed|lra]. }
  all: destruct (IH (S i) cur best) as (fin & L & A & R); exists fin; (split; [exact L|]); split;
    [intros ab [<-|I] H; [destruct H as [H1 H2]; fold (dist_to up p (a, b)) in H2; cbn [fst snd] in H1; change (height up p (line_at (fst (a, b)) (snd (a, b)) (fst p))) with (dist_to up p (a, b)) in H2;
       repeat match goal with H : rltb _ _ = false |- _ => apply rltb_false in H | H : rltb _ _ = true |- _ => apply rltb_true in H | H : rleb _ _ = true |- _ => apply rleb_true in H
         | H : rleb _ _ = false |- _ => apply not_true_iff_false in H; rewrite rleb_true in H end; lra|exact (A ab I H)]
    |destruct R as [R|(j & ab & Ej & R & El & Ed & Lt)]; [left; exact R|right; exists (S j), ab; split; [exact Ej|]; split; [rewrite R; f_equal; f_equal; lia|auto]]].
Qed.
Lemma target_spec up lo ld p : exists fin, (forall ab, In ab ld -> eligible up p ab -> fin - zerotol <= dist_to up p ab) /\
  (forall ab, In ab lo -> hides up p ab -> fin <= dist_to up p ab) /\ fin <= 10 ^ 15 /\
  ((target pl up lo ld p = None /\ (fin = 10 ^ 15 \/ exists ab, In ab lo /\ hides up p ab /\ fin = dist_to up p ab)) \/
   exists j ab, nth_error ld j = Some ab /\ target pl up lo ld p = Some (j, (fst p, line_at (fst ab) (snd ab) (fst p))) /\ eligible up p ab /\ fin = dist_to up p ab /\
     (forall ab', In ab' lo -> hides up p ab' -> fin < dist_to up p ab' - zerotol)).
Proof.
  unfold target. destruct (barrier_spec up p lo) as (B1 & B2 & B3). destruct (split_target_spec up p ld 0 (barrier pl up p lo) None) as (fin & L & A & R).
  exists fin. split; [exact A|]. split; [intros ab I H; specialize (B2 ab I H); lra|]. split; [lra|].
  destruct R as [[R ->]|(j & ab & Ej & R & El & Ed & Lt)].
  - left. split; [exact R|exact B3].
  - right. exists j, ab. split; [exact Ej|]. split; [exact R|]. split; [exact El|]. split; [symmetry; exact Ed|]. intros ab' I H. specialize (B2 ab' I H). lra.
Qed.

(** *** The whole run *)
Variable lookup : list point2 -> point2 -> option nat.
Variable sort_points : list point2 -> list point2.
Variable sort_edges : list point2 -> list (edge2 * bool) -> list (edge2 * bool).
Variable inside : pt -> bool.
Hypothesis Hs : forall l, Permutation l (sort_points l).
Hypothesis He : forall vs l, Permutation l (sort_edges vs l).

(** A vertex is either on the upper boundary up to the tolerance, or beyond ten times the tolerance. *)
Definition clear_of_top (v : point2) : Prop := tol < Rabs (snd v - top2 pl) -> 10 * tol <= Rabs (snd v - top2 pl).
Lemma clear_same v : clear_of_top v -> on_top pl v = true -> psame tol v (fst v, top2 pl) = true.
Proof.
  intros C T. apply rltb_true in T. assert (L : Rabs (snd v - top2 pl) <= tol). { apply Rnot_lt_le. intros L. specialize (C L). lra. }
  pose proof (snap_pos pl) as S. destruct v as [x y]. unfold psame, pcmp. cbn [fst snd] in *. replace (x - x) with 0 by ring. rewrite Rabs_R0.
  rewrite (proj2 (rltb_true 0 tol) S). unfold Rabs in L. destruct (Rcase_abs _) in L.
  all: rewrite (proj2 (rltb_false y (top2 pl - tol))), (proj2 (rltb_false (top2 pl) (y - tol))) by lra; reflexivity.
Qed.

Section Run.
Variable cap : nat.
Variable es : list (pt * pt * pt).
Variable Q : point2 -> Prop.
Variable Qx : R -> Prop.
Hypothesis Q_x : forall v, Q v -> Qx (fst v).
Hypothesis x_Q : forall x, Qx x -> Q (x, top2 pl).
Hypothesis Q_left : Qx (left1 pl).
Hypothesis Q_right : Qx (right1 pl).
Hypothesis Q_in : forall p q n, In (p, q, n) es -> Q (project pl p) /\ Q (project pl q).
Hypothesis room : (6 * length es + 10 <= cap)%nat \/
  (reserved es <= cap)%nat /\ sound pl lookup /\ complete pl lookup /\ (forall p q n, In (p, q, n) es -> clear_of_top (project pl p) /\ clear_of_top (project pl q)).

Theorem run_ok : exists s0 s s' m,
  collect pl lookup cap es empty_state = Some s0 /\ close_top pl lookup sort_edges inside cap s0 = Some s /\
  close_contour pl lookup sort_points sort_edges inside cap s0 = Some s' /\ triangulate_domain pl inside s' = Some m /\ cm_ok m /\
  Forall Q (verts (pos s)) /\ Forall Q (verts (neg s)) /\ valid (pos s) /\ valid (neg s) /\ unsplit (pos s) /\ unsplit (neg s) /\ neg s = neg s0 /\
  visit_n (cm_mesh m) = Some (map (fun x => (x, face_normal pl)) (flat_map (strip_tris pl inside (map fst (pieces_of sort_points (split_neg pl s)))) (pieces_of sort_points (split_pos pl s)))).
Proof.
  set (n := length es) in *.
  assert (Rn : reserved es = Nat.max (3 * n) 10) by reflexivity.
  set (PP := fun v => Q v /\ ((6 * n + 10 <= cap)%nat \/ clear_of_top v)).
  destruct (collect_ok pl lookup cap PP es 0 empty_state (collect_start pl lookup PP)) as (s0 & C0 & K).
  { fold n. destruct room as [r|[r _]]; [lia|rewrite Rn in r; lia]. }
  { intros p q k I. destruct (Q_in _ _ _ I). unfold PP. destruct room as [r|(r & _ & _ & g)]; [tauto|destruct (g _ _ _ I); tauto]. }
  cbn [Nat.add] in K. fold n in K. destruct K as [(Vp & Vn & Vv) (Lp & Ln & Lv) T (Fp & Fn & Fv) Hfull (Up & Un & Uv)].
  unfold from_inputs in *. unfold total_edges in T. rewrite Forall_forall in Fp, Fn, Fv.
  set (w := fun t : R * bool => if (6 * n + 10 <=? cap)%nat then 1%nat else if existsb (fun v => psame tol v (fst t, top2 pl)) (verts (pos s0)) then 0%nat else 1%nat).
  assert (W1 : forall t, (w t <= 1)%nat). { intros t. unfold w. destruct (_ <=? _)%nat; [lia|]. destruct (existsb _ _); lia. }
  set (ext := fun c => (6 * n + 10 <= cap)%nat \/ full c /\ incl (verts (pos s0)) (verts c)).
  (* the tops *)
  assert (TV : exists l b, top_vertices pl lookup sort_edges s0 = Some (l, b) /\ Forall (fun t => Qx (fst t)) l /\ (length l <= total_edges s0 + 2)%nat /\
    (list_sum (map w l) <= (if (6 * n + 10 <=? cap)%nat then length l else length (edges (neg s0)) + length (edges (ver s0)) + 2))%nat).
  { assert (QX : forall v, In v (verts (pos s0)) \/ In v (verts (neg s0)) \/ In v (verts (ver s0)) -> Qx (fst v)).
    { intros v [I|[I|I]]; [destruct (Fp v I)|destruct (Fn v I)|destruct (Fv v I)]; apply Q_x; assumption. }
    destruct (6 * n + 10 <=? cap)%nat eqn:E.
    - destruct (top_vertices_ok pl lookup sort_edges He Qx (fun _ => 0%nat) s0 Vp Vn Vv QX Q_left Q_right) as (l & b & E1 & E2 & E3 & _); [intros; lia|reflexivity|].
      exists l, b. split; [exact E1|]. split; [exact E2|]. split; [exact E3|]. clear - W1. induction l as [|t l IH]; [cbn; lia|]. cbn [map list_sum fold_right length]. specialize (W1 t). unfold list_sum in IH. lia.
    - apply (top_vertices_ok pl lookup sort_edges He Qx w s0 Vp Vn Vv QX Q_left Q_right W1).
      intros v b I O. unfold w. try rewrite E. cbn [fst]. assert (X : existsb (fun q => psame tol q (fst v, top2 pl)) (verts (pos s0)) = true); [|rewrite X; reflexivity].
      apply existsb_exists. exists v. split; [exact I|]. apply clear_same; [|exact O]. destruct (Fp v I) as [_ [H|H]]; [apply Nat.leb_gt in E; lia|exact H]. }
  destruct TV as (l & b & E1 & E2 & E3 & E4). unfold total_edges in E3. rewrite Forall_forall in E2.
  set (B := (if (6 * n + 10 <=? cap)%nat then length l else length (edges (neg s0)) + length (edges (ver s0)) + 2)%nat) in *.
  destruct (close_top_ok pl lookup sort_edges inside cap w ext) with (P := Q) (s := s0) (l := l) (b := b) (B := B) as (c & CT & (Vc & _ & Fc & Uc) & LVc & LEc).
  - intros c t Vc X Z. unfold w in Z. destruct (6 * n + 10 <=? cap)%nat eqn:E; [discriminate Z|]. destruct (existsb _ _) eqn:X1; [|discriminate Z].
    apply existsb_exists in X1. destruct X1 as (v & I & S). apply Nat.leb_gt in E. destruct X as [X|[Fu Inc]]; [lia|]. destruct room as [r|(r & So & Co & g)]; [lia|].
    intros N. pose proof (full_not_found pl lookup c _ So Co Fu N v (Inc v I)). congruence.
  - intros c c' a a' Vc [X|[Fu Inc]] I0 Or; [left; exact X|]. destruct room as [r|(r & So & Co & g)]; [left; exact r|]. right. split.
    + exact (insert_edge2_full pl lookup cap _ _ _ _ _ So Co Vc Fu I0).
    + destruct Or as [->|(i & j & _ & E & _)]; [exact Inc|]. rewrite E. intros v I. apply in_or_app. left. exact (Inc v I).
  - split; [exact Vp|]. split; [|split; [|exact Up]].
    + destruct room as [r|(r & So & Co & g)]; [left; exact r|]. right. destruct (Hfull So Co) as (H & _). split; [exact H|apply incl_refl].
    + apply Forall_forall. intros v I. apply (Fp v I).
  - exact E1.
  - exact E4.
  - unfold B. destruct (6 * n + 10 <=? cap)%nat eqn:E; [apply Nat.leb_le in E; lia|]. apply Nat.leb_gt in E. destruct room as [r|(r & _)]; [lia|]. rewrite Rn in r. lia.
  - intros t I. split; [apply W1|]. apply x_Q. exact (E2 t I).
  - set (s := State c (neg s0) (ver s0)) in *.
    assert (CB : (length (edges (neg s)) + length (verts (pos s)) + 1 <= cap /\ length (edges (pos s)) + length (verts (neg s)) + 1 <= cap)%nat).
    { unfold s; cbn [pos neg]. unfold B in *. destruct (6 * n + 10 <=? cap)%nat eqn:E; [apply Nat.leb_le in E; lia|]. apply Nat.leb_gt in E. destruct room as [r|(r & _)]; [lia|]. rewrite Rn in r. lia. }
    destruct (rest_ok pl lookup sort_points sort_edges inside cap Hs s0 s CT) as (s' & m & CC & TD & OK & VI); [exact Vc|exact Vn|exact Uc|exact Un|apply CB|apply CB|].
    exists s0, s, s', m. split; [exact C0|]. split; [exact CT|]. split; [exact CC|]. split; [exact TD|]. split; [exact OK|]. split; [exact Fc|]. split; [apply Forall_forall; intros v I; apply (Fn v I)|].
    split; [exact Vc|]. split; [exact Vn|]. split; [exact Uc|]. split; [exact Un|]. split; [reflexivity|exact VI].
Qed.
End Run.

(** *** More capacity does not change the result *)
Section More.
Variables cap cap' : nat.
Hypothesis more : (cap <= cap')%nat.
Lemma insert_at_more p i c c' : insert_at lookup cap p i c = Some c' -> insert_at lookup cap' p i c = Some c'.
Proof.
  unfold insert_at. destruct (i =? _)%nat; [|exact (fun H => H)]. destruct (_ <? cap)%nat eqn:E; [|discriminate]. apply Nat.ltb_lt in E.
  rewrite (proj2 (Nat.ltb_lt _ cap')) by lia. exact (fun H => H).
Qed.
Lemma insert_edge2_more a b n c c' : insert_edge2 pl lookup cap a b n c = Some c' -> insert_edge2 pl lookup cap' a b n c = Some c'.
Proof.
  unfold insert_edge2. destruct (unique_ids _ _ _ _ _) as [i j]. destruct (i =? j)%nat; [exact (fun H => H)|]. rewrite !and_then_some. intros (c1 & E1 & H). apply and_then_some in H. destruct H as (c2 & E2 & H).
  exists c1. split; [apply insert_at_more; exact E1|]. apply and_then_some. exists c2. split; [apply insert_at_more; exact E2|exact H].
Qed.
Lemma insert_edge3_more e s s' : insert_edge3 pl lookup cap e s = Some s' -> insert_edge3 pl lookup cap' e s = Some s'.
Proof.
  destruct e as [[p q] n]. unfold insert_edge3. destruct (if rltb _ _ then _ else _) as [a b].
  assert (V : forall g : cont -> state, forall c, option_map g (insert_edge2 pl lookup cap a b (project pl n) c) = Some s' -> option_map g (insert_edge2 pl lookup cap' a b (project pl n) c) = Some s').
  { intros g c. rewrite !option_map_some. intros (c' & E & H). exists c'. split; [apply insert_edge2_more; exact E|exact H]. }
  destruct (rltb tol (Rabs (fst a - fst b))), (rltb tol (Rabs (snd a - snd b))), (rltb zerotol (snd (project pl n))), (rltb (snd (project pl n)) (- zerotol)); try apply V; exact (fun H => H).
Qed.
Lemma fold_none es0 : fold_left (fun s e => and_then s (insert_edge3 pl lookup cap e)) es0 None = None.
Proof. induction es0 as [|e l IH]; [reflexivity|exact IH]. Qed.
Lemma collect_more es0 : forall s s', collect pl lookup cap es0 s = Some s' -> collect pl lookup cap' es0 s = Some s'.
Proof.
  unfold collect. induction es0 as [|e l IH]; intros s s'; [exact (fun H => H)|]. cbn [fold_left and_then].
  destruct (insert_edge3 pl lookup cap e s) as [s1|] eqn:E; [|rewrite fold_none; discriminate]. rewrite (insert_edge3_more _ _ _ E). apply IH.
Qed.
Lemma insert_top_more l r s s' : insert_top pl lookup cap l r s = Some s' -> insert_top pl lookup cap' l r s = Some s'.
Proof. unfold insert_top. rewrite !option_map_some. intros (c' & E & H). exists c'. split; [apply insert_edge2_more; exact E|exact H]. Qed.
Lemma insert_tops_more l : forall s s', insert_tops pl lookup cap l s = Some s' -> insert_tops pl lookup cap' l s = Some s'.
Proof.
  induction l as [|a l IH]; intros s s'; [exact (fun H => H)|]. destruct l as [|b l]; [exact (fun H => H)|]. cbn [insert_tops]. rewrite !and_then_some. intros (s1 & E & H).
  exists s1. split; [|apply IH; exact H]. destruct (snd a && negb (snd b)); [apply insert_top_more; exact E|exact E].
Qed.
Lemma close_top_more s s' : close_top pl lookup sort_edges inside cap s = Some s' -> close_top pl lookup sort_edges inside cap' s = Some s'.
Proof.
  unfold close_top. rewrite !and_then_some. intros (q & E & H). exists q. split; [exact E|]. destruct q as [l b]; cbn [fst snd] in *.
  destruct l as [|a [|a' [|a'' l]]]; try (apply insert_tops_more; exact H). destruct b; [|apply insert_tops_more; exact H]. destruct (inside _); [apply insert_top_more; exact H|exact H].
Qed.
Lemma split_loop_more todo : forall kept added vs r, split_loop sort_points cap kept todo added vs = Some r -> split_loop sort_points cap' kept todo added vs = Some r.
Proof.
  induction todo as [|e todo IH]; intros kept added vs r; [exact (fun H => H)|]. cbn [split_loop]. destruct (esplits e); [apply IH|].
  destruct (_ <=? cap)%nat eqn:E; [|discriminate]. apply Nat.leb_le in E. rewrite (proj2 (Nat.leb_le _ cap')) by lia. destruct (split_edge _ _ _) as [vs' es']. apply IH.
Qed.
Lemma close_contour_more s s' : close_contour pl lookup sort_points sort_edges inside cap s = Some s' -> close_contour pl lookup sort_points sort_edges inside cap' s = Some s'.
Proof.
  assert (SE : forall c c', split_edges sort_points cap c = Some c' -> split_edges sort_points cap' c = Some c').
  { intros c c'. unfold split_edges. rewrite !option_map_some. intros (q & E & H). exists q. split; [apply split_loop_more; exact E|exact H]. }
  unfold close_contour. rewrite !and_then_some. intros (s1 & E1 & H). exists s1. split; [apply close_top_more; exact E1|]. apply and_then_some in H. destruct H as (s2 & E2 & H).
  apply and_then_some. exists s2. split; [exact E2|]. apply and_then_some in H. destruct H as (n & E3 & H). apply and_then_some. exists n. split; [apply SE; exact E3|].
  apply option_map_some in H. destruct H as (p & E4 & H). apply option_map_some. exists p. split; [apply SE; exact E4|exact H].
Qed.
End More.

(** *** The face *)
(** The rectangle of the face, enlarged by a distance. *)
Variable dl : R.
Hypothesis dl_ok : 0 <= dl.
Definition in_face2 (v : point2) : Prop := left1 pl - dl <= fst v <= right1 pl + dl /\ bottom2 pl - dl <= snd v <= top2 pl + dl.
Lemma line_between a b x : fst a < x -> x < fst b -> Rmin (snd a) (snd b) <= line_at a b x <= Rmax (snd a) (snd b).
Proof.
  intros H1 H2. unfold line_at. set (t := (x - fst a) / (fst b - fst a)). assert (T : 0 <= t <= 1).
  { unfold t. split; [apply Rmult_le_pos; [lra|left; apply Rinv_0_lt_compat; lra]|]. apply (Rmult_le_reg_r (fst b - fst a)); [lra|]. unfold Rdiv. rewrite Rmult_assoc, Rinv_l by lra. lra. }
  replace (snd a + (snd b - snd a) / (fst b - fst a) * (x - fst a)) with (snd a + t * (snd b - snd a)) by (unfold t; field; lra).
  unfold Rmin, Rmax. destruct (Rle_dec (snd a) (snd b)); nra.
Qed.
Lemma on_edge_face ab q : on_edge2 ab q -> in_face2 (fst ab) -> in_face2 (snd ab) -> in_face2 q.
Proof.
  intros [[H1 H2] E] [A1 A2] [B1 B2]. pose proof (snap_pos pl). destruct (line_between (fst ab) (snd ab) (fst q)) as [L1 L2]; [lra|lra|]. rewrite <- E in L1, L2. split; [lra|].
  unfold Rmin, Rmax in *. destruct (Rle_dec (snd (fst ab)) (snd (snd ab))); lra.
Qed.

(** The split points of an edge lie on it. *)
Lemma spread_split ts es : forall i, Forall (fun e => esplits e = []) es -> forall k e, nth_error (spread i ts es) k = Some e ->
  exists e0, nth_error es k = Some e0 /\ ev1 e = ev1 e0 /\ ev2 e = ev2 e0 /\ enormal e = enormal e0 /\ esplits e = map snd (List.filter (fun t => fst t =? i + k)%nat ts).
Proof.
  induction es as [|e0 es IH]; intros i U k e E; [destruct k; discriminate E|]. inversion U as [|? ? U1 U2]; subst. destruct k as [|k].
  - cbn in E. injection E as <-. exists e0. cbn. rewrite U1, Nat.add_0_r. auto.
  - cbn [spread nth_error] in E. destruct (IH (S i) U2 k e E) as (e1 & H). exists e1. cbn [nth_error]. rewrite <- Nat.add_succ_comm. exact H.
Qed.
Lemma targets_in up lo ld ps k q : In (k, q) (targets pl up lo ld ps) -> exists p ab, In p ps /\ nth_error ld k = Some ab /\ fst q = fst p /\ on_edge2 ab q /\ eligible up p ab.
Proof.
  unfold targets. rewrite in_flat_map. intros (p & I & H). destruct (target pl up lo ld p) as [t|] eqn:E; [|destruct H]. destruct H as [->|[]].
  destruct (target_spec up lo ld p) as (fin & _ & _ & _ & [[N _]|(j & ab & Ej & T & El & _)]); [congruence|]. rewrite T in E. injection E as <- <-.
  exists p, ab. split; [exact I|]. split; [exact Ej|]. split; [reflexivity|]. split; [|exact El]. destruct El as [El _]. split; [exact El|reflexivity].
Qed.
Lemma split_points_on c ts up lo ps e q : unsplit c -> ts = targets pl up lo (segs c) ps -> In e (edges (with_splits ts c)) -> In q (esplits e) ->
  exists p, In p ps /\ fst q = fst p /\ on_edge2 (seg (verts c) e) q /\ eligible up p (seg (verts c) e).
Proof.
  intros U -> I Iq. apply In_nth_error in I. destruct I as (k & E). cbn [with_splits edges] in E. destruct (spread_split _ _ 0 U k e E) as (e0 & E0 & V1 & V2 & _ & S).
  rewrite S in Iq. apply in_map_iff in Iq. destruct Iq as ([k' q'] & Eq & F). cbn [snd] in Eq. subst q'. apply filter_In in F. destruct F as [F1 F2]. cbn [fst] in F2. apply Nat.eqb_eq in F2. cbn [Nat.add] in F2. subst k'.
  destruct (targets_in _ _ _ _ _ _ F1) as (p & ab & Ip & Ek & X & O & El). exists p. split; [exact Ip|]. split; [exact X|].
  unfold segs in Ek. rewrite nth_error_map, E0 in Ek. cbn in Ek. injection Ek as <-. unfold seg in *. rewrite V1, V2. split; [exact O|exact El].
Qed.

(** A piece of an edge: its end points are end points of the edge or split points. *)
Lemma chain_in l : forall a b s, In s (chain a l b) -> (fst s = a \/ In (fst s) l) /\ (snd s = b \/ In (snd s) l).
Proof.
  induction l as [|p l IH]; intros a b s; cbn [chain].
  - intros [<-|[]]. cbn. auto.
  - intros [<-|I]; [cbn; auto|]. destruct (IH _ _ _ I) as [[H1|H1] [H2|H2]]; cbn; auto.
Qed.
Lemma pieces_of_in c s n : In (s, n) (pieces_of sort_points c) -> exists e, In e (edges c) /\ n = enormal e /\
  (fst s = fst (seg (verts c) e) \/ In (fst s) (esplits e)) /\ (snd s = snd (seg (verts c) e) \/ In (snd s) (esplits e)).
Proof.
  unfold pieces_of. intros I. apply in_app_or in I. destruct I as [I|I].
  - apply in_map_iff in I. destruct I as (e & E & I). apply filter_In in I. destruct I as [I _]. unfold nseg in E. injection E as <- <-. exists e. auto.
  - apply in_flat_map in I. destruct I as (e & I & H). apply filter_In in I. destruct I as [I _]. unfold pieces in H. apply in_map_iff in H. destruct H as (s' & E & H). injection E as <- <-.
    exists e. split; [exact I|]. split; [reflexivity|]. destruct (chain_in _ _ _ _ H) as [H1 H2]. split; [destruct H1|destruct H2]; auto; right; apply (Permutation_in _ (Permutation_sym (Hs (esplits e)))); assumption.
Qed.
Lemma pieces_face c ts up lo ps s n : valid c -> unsplit c -> Forall in_face2 (verts c) -> ts = targets pl up lo (segs c) ps -> In (s, n) (pieces_of sort_points (with_splits ts c)) ->
  in_face2 (fst s) /\ in_face2 (snd s).
Proof.
  intros V U F T I. destruct (pieces_of_in _ _ _ I) as (e & Ie & _ & H1 & H2). cbn [with_splits verts] in *.
  pose proof (with_splits_valid ts c V) as V'. destruct (seg_in (with_splits ts c) e V' Ie) as [S1 S2]. cbn [with_splits verts] in S1, S2. rewrite Forall_forall in F.
  assert (G : forall q, In q (esplits e) -> in_face2 q).
  { intros q Iq. destruct (split_points_on c ts up lo ps e q U T Ie Iq) as (p & _ & _ & O & _). exact (on_edge_face _ _ O (F _ S1) (F _ S2)). }
  split; [destruct H1 as [-> | H1]|destruct H2 as [-> | H2]]; auto.
Qed.

(** The partner is one of the negative edges. *)
Definition aligned (a b v w : point2) : Prop :=
  fst v < fst (center2 a b) < fst w /\ Rabs (fst a - fst v) < 10 * tol /\ Rabs (fst b - fst w) < 10 * tol.
Lemma partner_in a b n ln : forall best v w d, partner pl inside a b n ln best = Some ((v, w), d) -> best = Some ((v, w), d) \/
  In (v, w) ln /\ aligned a b v w /\ - zerotol <= d /\ d = snd (center2 a b) - / 2 * (snd v + snd w).
Proof.
  induction ln as [|[v0 w0] ln IH]; intros best v w d; [left; exact H|]. cbn [partner]. intros H. apply IH in H. destruct H as [H|(I & H)]; [|right; split; [right; exact I|exact H]].
  match type of H with (if ?t then _ else _) = _ => destruct t eqn:E end; [|left; exact H]. right. injection H as -> -> <-.
  rewrite !andb_true_iff in E. destruct E as [[[E1 E2] [E3 E4]] E5]. apply rltb_true in E1, E2, E3, E4. split; [left; reflexivity|]. split; [split; [split; assumption|split; assumption]|]. split; [|reflexivity].
  destruct (rleb (Rabs _) zerotol) in E5; rewrite !andb_true_iff in E5; destruct E5 as [_ [E5 _]]; [apply rltb_true in E5; left; exact E5|apply rleb_true in E5; exact E5].
Qed.

Definition tri_all {A} (P : A -> Prop) (t : tri A) : Prop := let '(Tri p q r) := t in P p /\ P q /\ P r.
Definition on_face (p : pt) : Prop := in_face2 (project pl p) /\ at_ (d3 pl) p = position pl.
Hypothesis axes_ok : d1 pl <> d2 pl /\ d1 pl <> d3 pl /\ d2 pl <> d3 pl.
Lemma lift_at z v : at_ (d1 pl) (lift pl z v) = fst v /\ at_ (d2 pl) (lift pl z v) = snd v /\ at_ (d3 pl) (lift pl z v) = z.
Proof. unfold lift. destruct axes_ok as (N1 & N2 & N3). destruct (d1 pl), (d2 pl), (d3 pl); try congruence; cbn; auto. Qed.
Lemma project_lift z v : project pl (lift pl z v) = v.
Proof. destruct (lift_at z v) as (E1 & E2 & _). unfold project. rewrite E1, E2. destruct v; reflexivity. Qed.
Lemma centroid4 a b c d k : at_ k (centroid [a; b; c; d]) = (at_ k (c_pos a) + at_ k (c_pos b) + at_ k (c_pos c) + at_ k (c_pos d)) / 4.
Proof. unfold centroid. cbn [length fold_left]. replace (INR 4) with 4 by (cbn; ring). destruct k; cbn [at_ vscale vadd px py pz]; field. Qed.
Hypothesis box_ok : bottom2 pl <= top2 pl.
Lemma strip_face ln e : (forall v w, In (v, w) ln -> in_face2 v /\ in_face2 w) -> in_face2 (fst (fst e)) -> in_face2 (snd (fst e)) -> Forall (tri_all on_face) (strip_tris pl inside ln e).
Proof.
  intros L. destruct e as [[a b] n]. cbn [fst snd]. intros A B. unfold strip_tris.
  assert (F : forall v, in_face2 v -> on_face (lift pl (position pl) v)) by (intros v H; split; [rewrite project_lift; exact H|apply lift_at]).
  assert (Z : forall v, in_face2 v -> in_face2 (fst v, bottom2 pl)) by (intros v [H1 H2]; split; cbn [fst snd]; lra).
  assert (Qd : forall p q r t, in_face2 p -> in_face2 q -> in_face2 r -> in_face2 t -> Forall (tri_all on_face)
    (poly_tris (if forwards pl then [CV (lift pl (position pl) p) no_planes; CV (lift pl (position pl) q) no_planes; CV (lift pl (position pl) r) no_planes; CV (lift pl (position pl) t) no_planes]
                else [CV (lift pl (position pl) p) no_planes; CV (lift pl (position pl) t) no_planes; CV (lift pl (position pl) r) no_planes; CV (lift pl (position pl) q) no_planes]))).
  { assert (M : forall x y z t, on_face (c_pos x) -> on_face (c_pos y) -> on_face (c_pos z) -> on_face (c_pos t) -> on_face (centroid [x; y; z; t])).
    { intros x y z t [[X1 X2] X3] [[Y1 Y2] Y3] [[Z1 Z2] Z3] [[T1 T2] T3]. unfold on_face, in_face2, project in *. cbn [fst snd] in *. rewrite !centroid4, X3, Y3, Z3, T3. split; [split; lra|field]. }
    intros p q r t Hp Hq Hr Ht. apply F in Hp, Hq, Hr, Ht. destruct (forwards pl); cbn [poly_tris ring map combine app]; repeat apply Forall_cons; try apply Forall_nil; cbn [fan_tri tri_all fst snd]; (split; [|split]); first [assumption | apply M; assumption]. }
  assert (On : forall p q r, in_face2 p -> in_face2 q -> in_face2 r -> Forall (tri_all on_face)
    [if forwards pl then Tri (lift pl (position pl) p) (lift pl (position pl) q) (lift pl (position pl) r) else Tri (lift pl (position pl) q) (lift pl (position pl) p) (lift pl (position pl) r)]).
  { intros p q r Hp Hq Hr. constructor; [|constructor]. destruct (forwards pl); cbn; auto. }
  destruct (partner pl inside a b n ln None) as [[[v w] d]|] eqn:E.
  - destruct (partner_in _ _ _ _ _ _ _ _ E) as [C|[I _]]; [discriminate C|]. destruct (L _ _ I) as [Lv Lw]. destruct (rltb _ tol); [apply On; assumption|]. destruct (rltb _ tol); [apply On; assumption|]. apply Qd; assumption.
  - apply Qd; auto.
Qed.

(** What a mesh that is returned consists of. *)
Theorem face_mesh_shape es m : left1 pl <= right1 pl -> face_mesh pl lookup sort_points sort_edges inside es = Some m ->
  (forall p q n, In (p, q, n) es -> in_face2 (project pl p) /\ in_face2 (project pl q)) ->
  cm_ok m /\ exists ts, visit_n (cm_mesh m) = Some (map (fun x => (x, face_normal pl)) ts) /\ Forall (tri_all on_face) ts.
Proof.
  intros LR F I. unfold face_mesh in F. apply and_then_some in F. destruct F as (s0 & C & F). apply and_then_some in F. destruct F as (s1 & CC & T).
  set (cap := Nat.max (reserved es) (6 * length es + 10)). assert (M : (reserved es <= cap)%nat) by (unfold cap; lia).
  destruct (run_ok cap es in_face2 (fun x => left1 pl - dl <= x <= right1 pl + dl)) as (s0' & s & s1' & m' & C' & _ & CC' & T' & OK & Fp & Fn & Vp & Vn & Up & Un & _ & V).
  - intros v H. apply H.
  - intros x H. split; cbn [fst snd]; lra.
  - lra.
  - lra.
  - exact I.
  - left. unfold cap. lia.
  - apply (collect_more _ _ M) in C. rewrite C in C'. injection C' as <-. apply (close_contour_more _ _ M) in CC. rewrite CC in CC'. injection CC' as <-. rewrite T in T'. injection T' as <-.
    split; [exact OK|]. eexists. split; [exact V|]. apply Forall_forall. intros t It. apply in_flat_map in It. destruct It as ([s' n'] & Ie & It).
    assert (G : Forall (tri_all on_face) (strip_tris pl inside (map fst (pieces_of sort_points (split_neg pl s))) (s', n'))); [|rewrite Forall_forall in G; apply G; exact It].
    destruct (pieces_face _ _ _ _ _ _ _ Vp Up Fp eq_refl Ie) as [A B]. apply strip_face; [|exact A|exact B].
    intros v w Iv. apply in_map_iff in Iv. destruct Iv as ([vw k] & E & Iv). cbn [fst] in E. subst vw. destruct (pieces_face _ _ _ _ _ _ _ Vn Un Fn eq_refl Iv) as [V1 W1]. split; assumption.
Qed.
End Face.
