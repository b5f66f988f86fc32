(** Concrete trimmed elements: instances of the hypotheses of C21-C24 and counterexamples to the unguarded statements. *)
From Coq Require Import Arith NArith ZArith QArith Qreals Reals List Bool Lra Lia Permutation.
From Verif Require Import Geo GridStoreModel GgqModel GgqProofs Ggq1dModel GaussModel GaussProofs GaussProps MappingModel MappingProps PolyModel PolyProps
  OctreeModel OctreeSpec OctreeProofs OctreeProps TrimmedQuadModel TrimmedQuadProofs TrimmedQuadAssemble TrimmedQuadLemmas.
Import ListNotations.
Local Open Scope nat_scope.
Local Open Scope R_scope.

(** ** the two-point rule *)
Lemma rule1 : exists l a b, get_gauss 1 Gauss = Some l /\ real_rule l = [a; b] /\ / 5 < fst a < / 4 /\ 3 / 4 < fst b < 4 / 5 /\ 2 / 5 < snd a /\ 2 / 5 < snd b.
Proof.
  destruct (get_gauss 1 Gauss) as [l|] eqn:E; [|discriminate]. vm_compute in E. injection E as <-. do 3 eexists. split; [reflexivity|]. split; [reflexivity|].
  cbn [fst snd Qnum Qden]. unfold Q2R. cbn [Qnum Qden]. lra.
Qed.

Definition cube (s : R) : box := Box (Pt 0 0 0) (Pt s s s).
Definition unit_bounds : ebounds := EB (cube 1) (cube 1).
Lemma cube_ok s : 0 < s -> box_ok (cube s).
Proof. intros H []; simpl; assumption. Qed.
Lemma unit_bounds_ok : bounds_ok unit_bounds.
Proof. split; apply cube_ok; lra. Qed.
Lemma map_cube s t p : 0 < s -> to_global p (EB (cube s) (cube t)) = Pt (px p * (Rabs (s - 0) / Rabs (t - 0))) (py p * (Rabs (s - 0) / Rabs (t - 0))) (pz p * (Rabs (s - 0) / Rabs (t - 0))).
Proof. intros H. unfold to_global, compute_scale. cbn [unit_bounds cube lower upper px py pz eb_global eb_param]. f_equal; ring. Qed.
Lemma map_same s p : 0 < s -> to_global p (EB (cube s) (cube s)) = p.
Proof.
  intros H. rewrite map_cube by assumption. rewrite Rminus_0_r. assert (E : Rabs s / Rabs s = 1) by (rewrite Rabs_right by lra; field; lra). rewrite E, !Rmult_1_r. destruct p; reflexivity.
Qed.
Lemma unit_det : det_j unit_bounds = 1.
Proof. unfold det_j, compute_scale. cbn [unit_bounds cube lower upper px py pz eb_global eb_param]. cbv zeta. cbn [unit_bounds cube lower upper px py pz eb_global eb_param]. rewrite Rminus_0_r, Rabs_R1. field. Qed.
Lemma unit_active : active_param unit_bounds (cube 1) = cube 1.
Proof. unfold active_param, to_parametric, compute_scale, cube. cbv zeta. cbn [unit_bounds cube lower upper px py pz eb_global eb_param]. rewrite !Rminus_0_r, Rabs_R1. f_equal; f_equal; field. Qed.

(** ** a domain that fills its bounding box *)
Lemma leaves_nonempty : forall t, leaves t <> [].
Proof.
  induction t as [a b st k ch IH] using node_induction. rewrite leaves_unfold. destruct (no_child ch) eqn:E; [discriminate|].
  unfold no_child in E. intros K. assert (H : exists c, In (Some c) ch).
  { clear -E. induction ch as [|[c|] ch IH]; [discriminate|exists c; left; reflexivity|]. destruct (IH E) as (c & Hc). exists c. right. assumption. }
  destruct H as (c & Hc). destruct (leaves c) as [|l L] eqn:El; [apply (IH c Hc El)|].
  assert (Hin : In l (flat_map (fun o => match o with None => [] | Some c => leaves c end) ch)) by (apply in_flat_map; exists (Some c); split; [assumption|rewrite El; left; reflexivity]).
  rewrite K in Hin. destruct Hin.
Qed.
Lemma all_points state inside X U h t o : box_ok X -> box_ok U -> (let '(a, b, c) := o in a <= 9 /\ b <= 9 /\ c <= 9)%nat ->
  refinements state h (octree_new X U) = Some t -> (forall p, in_open X p -> inside p = true) ->
  exists pts, add_points inside o t [] = Some pts /\ length pts = (moments_of o * length (leaves (o_root t)))%nat /\
    forall q, In q pts -> exists l g, In l (leaves (o_root t)) /\ assemble_ips (n_uvw l) o Gauss = Some g /\ In q g.
Proof.
  intros HX HU Ho HR Hin. destruct o as ((ou & ov) & ow). destruct Ho as (Hu & Hv & Hw). pose proof (refinements_wf state X U h _ _ (new_wf state X U) HR) as W.
  assert (F : forall l, In l (leaves (o_root t)) -> exists g, assemble_ips (n_uvw l) (ou, ov, ow) Gauss = Some g /\ length g = moments_of (ou, ov, ow) /\
     leaf_points inside (ou, ov, ow) (n_xyz l) (n_uvw l) (n_status l) = Some g).
  { intros l Hl. destruct (leaves_at _ root_cell l Hl) as (c & L). destruct (leaf_wf _ _ _ _ _ _ _ L W) as (F & _). apply wf_fields in F. destruct F as (F1 & F2 & _).
    destruct (gauss_points (n_uvw l) ou ov ow Gauss) as (g & Hg & Lg & Hq); [rewrite F2; apply dyadic_box_ok; assumption|exact Hu|exact Hv|exact Hw|].
    exists g. split; [assumption|]. split; [exact Lg|]. unfold leaf_points. rewrite Hg.
    assert (E : List.filter (fun q => inside (to_global (ip_pos q) (EB (n_xyz l) (n_uvw l)))) g = g).
    { rewrite F1, F2 in *. assert (K : forall q, In q g -> inside (to_global (ip_pos q) (EB (dyadic X c) (dyadic U c))) = true).
      { intros q Hqg. apply Hin. destruct (Hq q Hqg) as (Ho & _). set (x := to_global _ _). rewrite <- (root_dyadic X). eapply leaf_within_open; [assumption|exact L|].
        apply (open_mapped (EB (dyadic X c) (dyadic U c))); [split; apply dyadic_box_ok; assumption|assumption]. }
      clear -K. induction g as [|q g IH]; [reflexivity|]. simpl. rewrite (K q (or_introl eq_refl)), IH; [reflexivity|]. intros q' Hq'. apply K. right. assumption. }
    rewrite E. destruct (n_status l); reflexivity. }
  eexists. split; [|split].
  - apply points_concat. intros l Hl. destruct (F l Hl) as (g & _ & _ & ->). discriminate.
  - cbn [app]. clear -F. induction (leaves (o_root t)) as [|l L IH]; [simpl; lia|]. cbn [flat_map length]. rewrite app_length, IH by (intros l' Hl'; apply F; right; assumption).
    destruct (F l (or_introl eq_refl)) as (g & _ & Lg & ->). simpl or_nil. rewrite Lg. lia.
  - intros q Hq. cbn [app] in Hq. apply in_flat_map in Hq. destruct Hq as (l & Hl & Hq). destruct (F l Hl) as (g & Hg & _ & E). rewrite E in Hq. exists l, g. auto.
Qed.

Definition full_state (_ : box) : istate := Inside.
Definition everywhere (_ : pt) : bool := true.
Definition first_tree : octree := Oct (refine full_state 1 1 (Node (cube 1) (cube 1) Trimmed 0 no_children)) 1 1.
Lemma first_refined : refinements full_state [(1, 1)%nat] (octree_new (cube 1) (cube 1)) = Some first_tree.
Proof. reflexivity. Qed.
Lemma first_points : exists q pts, add_points everywhere (1, 1, 1)%nat first_tree [] = Some (q :: pts) /\ length (q :: pts) = 64%nat /\ (forall q', In q' (q :: pts) -> / 1000 <= ip_weight q') /\ in_open (cube 1) (ip_pos q).
Proof.
  assert (H1 : box_ok (cube 1)) by (apply cube_ok; lra).
  destruct (all_points full_state everywhere (cube 1) (cube 1) [(1, 1)%nat] first_tree (1, 1, 1)%nat H1 H1 ltac:(simpl; lia) first_refined ltac:(reflexivity)) as (pts & HA & HL & HQ).
  destruct (uniform full_state (cube 1) (cube 1) 1 first_tree ltac:(discriminate) first_refined) as (HN & _). unfold number_of_leafs in HN. rewrite leafs_count in HN. cbn [Nat.add] in HN. change (8 ^ 1)%nat with 8%nat in HN. rewrite HN in HL.
  destruct pts as [|q pts]; [discriminate|]. exists q, pts. split; [assumption|]. split; [exact HL|]. split.
  - intros q' Hq'. destruct (HQ q' Hq') as (l & g & Hl & Hg & Hqg).
    destruct (levels full_state (cube 1) (cube 1) [] 1 1 first_tree first_refined) as (_ & _ & _ & Lv). destruct (Lv l Hl) as (c & _ & _ & Hlev & _). simpl in Hlev.
    destruct (tiling full_state (cube 1) (cube 1) [(1, 1)%nat] first_tree H1 first_refined) as (_ & _ & T). destruct (T l Hl) as (d & _ & Hk & _ & Hu & _).
    destruct (assemble_some _ _ _ _ _ _ Hg) as (u & v & w & Eu & Ev & Ew & ->). destruct rule1 as (r & a & b & Er & Ea & _ & _ & Wa & Wb).
    rewrite Er in Eu, Ev, Ew. injection Eu as <-. injection Ev as <-. injection Ew as <-. apply loops_in in Hqg. destruct Hqg as (x & y & z & Hx & Hy & Hz & ->). cbn [ip_weight].
    assert (Sd : forall a, / 2 <= Rabs (at_ a (upper (n_uvw l)) - at_ a (lower (n_uvw l)))).
    { intros ax. rewrite Hu. assert (E : at_ ax (upper (dyadic (cube 1) d)) - at_ ax (lower (dyadic (cube 1) d)) = 1 / 2 ^ c_k d).
      { destruct ax; cbn -[pow INR dy1]; rewrite dy1_S; field; apply pow_nonzero; lra. }
      rewrite E. rewrite Hk in Hlev. assert (C : c_k d = 0%nat \/ c_k d = 1%nat) by lia. destruct C as [-> | ->]; simpl; rewrite Rabs_right; lra. }
    assert (Wt : forall t, In t (real_rule r) -> 2 / 5 < snd t) by (rewrite Ea; intros t [<-|[<-|[]]]; assumption).
    pose proof (Sd AX) as S1. pose proof (Sd AY) as S2. pose proof (Sd AZ) as S3. cbn [at_] in S1, S2, S3. pose proof (Wt x Hx) as W1. pose proof (Wt y Hy) as W2. pose proof (Wt z Hz) as W3.
    set (m1 := Rabs _) in *. set (m2 := Rabs (py _ - _)) in *. set (m3 := Rabs (pz _ - _)) in *.
    assert (P : forall p m, 2 / 5 < p -> / 2 <= m -> / 5 <= p * m) by (intros; nra).
    pose proof (P _ _ W1 S1) as P1. pose proof (P _ _ W2 S2) as P2. pose proof (P _ _ W3 S3) as P3.
    replace (snd x * m1 * snd y * m2 * snd z * m3) with ((snd x * m1) * (snd y * m2) * (snd z * m3)) by ring.
    set (n1 := snd x * m1) in *. set (n2 := snd y * m2) in *. set (n3 := snd z * m3) in *. clearbody n1 n2 n3.
    assert (/ 25 <= n1 * n2) by nra. assert (/ 125 <= n1 * n2 * n3) by nra. lra.
  - destruct (octree_points full_state everywhere (cube 1) (cube 1) [(1, 1)%nat] first_tree 1 1 1 [] H1 H1 ltac:(lia) ltac:(lia) ltac:(lia) first_refined) as (pts' & HA' & HI & _).
    rewrite HA in HA'. cbn [app] in HA'. injection HA' as <-. apply (HI q). left. reflexivity.
Qed.

Lemma first_distributed pts : add_points everywhere (1, 1, 1)%nat first_tree [] = Some pts -> length pts = 64%nat ->
  distribute everywhere full_state (1, 1, 1)%nat 8 [] (octree_new (cube 1) (cube 1)) = Some (pts, first_tree).
Proof.
  intros HA HL. unfold distribute. change (o_max (octree_new (cube 1) (cube 1)) + 1)%nat with 1%nat.
  assert (E : forall n, distribute_loop everywhere full_state (1, 1, 1)%nat n 8 2 pts first_tree = Some (pts, first_tree)) by (intros []; cbn [distribute_loop]; rewrite HL; reflexivity).
  rewrite <- (E 4%nat). generalize 4%nat. intros n. cbn [distribute_loop]. change (length [] <? 8)%nat with true. cbv iota. change (Nat.min 1 4) with 1%nat.
  change (octree_refine full_state 1 1 (octree_new (cube 1) (cube 1))) with (Some first_tree). cbv iota. rewrite HA. reflexivity.
Qed.

(** ** a solver that satisfies the contract: it recognises multiples of the first column *)
Definition req_dec (a b : list R) : {a = b} + {a <> b} := list_eq_dec Req_EM_T a b.
Definition solver (w : R) (A : list (list R)) (b : list R) : list R * R :=
  match A with
  | c :: A' => if req_dec b (map (Rmult w) c) then (w :: repeat 0 (length A'), 0) else (repeat 0 (length A), l2 b)
  | [] => ([], l2 b)
  end.
Lemma l2_rsum v : l2 v * l2 v = rsum (map (fun x => x * x) v).
Proof.
  unfold l2. assert (G : forall v a, fold_left (fun acc x => acc + x * x) v a = a + rsum (map (fun x => x * x) v)).
  { clear. induction v as [|x v IH]; intros a; simpl; [ring|]. rewrite IH. unfold rsum. ring. }
  rewrite G, Rplus_0_l. apply sqrt_sqrt. clear. induction v as [|x v IH]; [simpl; lra|]. cbn [map rsum fold_right]. unfold rsum in IH. pose proof (Rle_0_sqr x). unfold Rsqr in *. lra.
Qed.
Lemma apply_zeros A m : apply_row A (repeat 0 (length A)) m = 0.
Proof. unfold apply_row. induction A as [|c A IH]; [reflexivity|]. cbn [length repeat combine map rsum fold_right fst snd]. unfold rsum in IH. rewrite IH. ring. Qed.
Lemma zeros_residual A b : l2 b * l2 b = rsum (map (fun m => (apply_row A (repeat 0 (length A)) m - nth m b 0) * (apply_row A (repeat 0 (length A)) m - nth m b 0)) (seq 0 (length b))).
Proof.
  rewrite l2_rsum. rewrite <- (map_seq_nth b 0) at 1. rewrite map_map. apply rsum_ext. intros m. rewrite apply_zeros. ring.
Qed.
Lemma solver_contract w : 0 <= w -> nnls_contract (solver w).
Proof.
  intros Hw A b _. unfold contract_at, solver. destruct A as [|c A].
  - split; [reflexivity|]. split; [intros x []|]. split; [apply sqrt_pos|]. apply (zeros_residual [] b).
  - destruct (req_dec b (map (Rmult w) c)) as [->|_].
    + split; [simpl; rewrite repeat_length; reflexivity|]. split; [intros x [<-|Hx]; [assumption|apply repeat_spec in Hx; lra]|]. split; [lra|].
      assert (Z : forall l : list nat, rsum (map (fun _ => 0) l) = 0) by (induction l as [|k l IH]; [reflexivity|cbn [map rsum fold_right]; unfold rsum in IH; rewrite IH; ring]).
      rewrite (rsum_ext_in _ (fun _ => 0)); [rewrite Z; ring|]. intros m Hm. apply in_seq in Hm. rewrite map_length in Hm.
      assert (E : apply_row (c :: A) (w :: repeat 0 (length A)) m = w * nth m c 0).
      { unfold apply_row. cbn [combine map rsum fold_right fst snd]. pose proof (apply_zeros A m) as K. unfold apply_row, rsum in K. rewrite K. ring. }
      rewrite E. rewrite (nth_indep (map (Rmult w) c) 0 (w * 0)) by (rewrite map_length; lia). rewrite map_nth. ring.
    + split; [rewrite repeat_length; reflexivity|]. split; [intros x Hx; apply repeat_spec in Hx; lra|]. split; [apply sqrt_pos|]. apply zeros_residual.
Qed.

(** ** an accepted fit *)
Section Accepted.
Variables mind maxd target : R.
Hypothesis Hmin : mind < target.
Hypothesis Hpos : 0 < target.
Hypothesis Hmax : target < maxd.
Notation o1 := (1, 1, 1)%nat.
(** two boundary points opposite each other in x, midway between which lies p *)
Definition opposite (p : pt) : list bpoint := [BP (Pt (px p + 1 / 2) (py p) (pz p)) 3 (Pt 1 0 0); BP (Pt (px p - 1 / 2) (py p) (pz p)) 3 (Pt (-1) 0 0)].
Lemma opposite_terms q : constant_terms (cube 1) (opposite (ip_pos q)) o1 = column unit_bounds o1 q.
Proof.
  unfold constant_terms, column. apply map_ext_in. intros ((i & j) & k) H. apply rows_in in H. simpl in H. destruct (ip_pos q) as [x y z].
  unfold constant_term, opposite, shape, flux, dot. cbn -[f_x f_x_int]. set (fy := f_x y j 0 1). set (fz := f_x z k 0 1). clearbody fy fz.
  assert (C : (i = 0 \/ i = 1)%nat) by lia. destruct C as [-> | ->]; unfold f_x_int, f_x, power, power_loop; field.
Qed.
Lemma ct_nonzero p : l2 (constant_terms (cube 1) (opposite p) o1) <> 0.
Proof.
  pose proof (opposite_terms (IP p 0)) as E. cbn [ip_pos] in E. rewrite E. intros K. pose proof (l2_rsum (column unit_bounds o1 (IP p 0))) as L. rewrite K in L.
  unfold column in L. cbn -[shape] in L. assert (S : shape (eb_param unit_bounds) (0, 0, 0)%nat p = 1) by (simpl; ring). cbn -[shape] in S. rewrite S in L.
  repeat match type of L with context [shape ?a ?b ?c * shape ?a ?b ?c] => let v := fresh "v" in pose proof (Rle_0_sqr (shape a b c)); unfold Rsqr in *; set (v := shape a b c * shape a b c) in * end. lra.
Qed.
Lemma small_drop x pts : (forall q, In q pts -> ip_weight q = 0) -> 1 <= ip_weight x -> drop_below zerotol (x :: pts) = [x].
Proof.
  intros H Hx. assert (Z : 0 < zerotol <= / 10) by (unfold zerotol; split; [apply Rinv_0_lt_compat, pow_lt; lra|apply Rinv_le_contravar; [lra|simpl; lra]]).
  unfold drop_below. cbn [List.filter]. destruct (Rlt_dec (ip_weight x) zerotol) as [K|K]; [lra|]. f_equal.
  induction pts as [|q pts IH]; [reflexivity|]. cbn [List.filter]. rewrite (H q (or_introl eq_refl)). destruct (Rlt_dec 0 zerotol) as [K'|K']; [|lra]. apply IH. intros q' Hq'. apply H. right. assumption.
Qed.
Lemma firstn_In {A} n : forall (l : list A) x, In x (firstn n l) -> In x l.
Proof. induction n as [|n IH]; intros [|y l] x H; try contradiction. destruct H as [<-|H]; [left; reflexivity|right; apply IH; assumption]. Qed.
Lemma zero_weights pts : forall n q, In q (set_weights unit_bounds pts (repeat 0 n)) -> ip_weight q = 0.
Proof.
  induction pts as [|p pts IH]; intros n q H; [destruct H|]. cbn [set_weights] in H. destruct H as [<-|H].
  - cbn [ip_weight]. rewrite unit_det. destruct n; simpl; field.
  - destruct n; [apply (IH 0%nat); assumption|]. apply (IH n). assumption.
Qed.
Lemma accepted_elimination q pts : (8 <= length (q :: pts))%nat ->
  point_elimination (solver 1) (fun l => l) mind maxd unit_bounds o1 target (constant_terms (cube 1) (opposite (ip_pos q)) o1) (q :: pts) [] =
  Ok ([IP (ip_pos q) 1], 0, [IP (ip_pos q) 1]).
Proof.
  intros HL. set (ct := constant_terms (cube 1) (opposite (ip_pos q)) o1).
  assert (Col : forall w, ct = map (Rmult 1) (column unit_bounds o1 (IP (ip_pos q) w))).
  { intros w. unfold ct. rewrite opposite_terms. unfold column. cbn [ip_pos]. rewrite map_map. apply map_ext. intros r. ring. }
  assert (Fit : forall w l, moment_fitting (solver 1) unit_bounds o1 ct (IP (ip_pos q) w :: l) = (IP (ip_pos q) 1 :: set_weights unit_bounds l (repeat 0 (length l)), 0)).
  { intros w l. unfold moment_fitting, solver. cbn [map]. destruct (req_dec ct _) as [_|N]; [|exfalso; apply N, Col]. cbn [set_weights hd tl]. rewrite unit_det, map_length.
    f_equal; [f_equal; f_equal; field|]. unfold Rdiv. ring. }
  assert (B0 : below_target target 0 = true) by (apply below_true; assumption).
  assert (Bm : below_target target mind = true) by (apply below_true; assumption).
  unfold point_elimination. rewrite Nat.add_comm. cbn [Nat.add pe_loop]. unfold pe_continue at 1. cbn [pe_elim pe_global pe_iter orb]. rewrite Bm. cbn [andb]. change (0 <? maximum_iteration)%N with true. cbv iota.
  unfold pe_body at 1. cbn [pe_pts pe_iter]. destruct q as [x w0]. cbn [ip_pos] in *. rewrite Fit. change (0 =? 0)%N with true. cbv iota zeta.
  cbn [length] in *. rewrite set_weights_length. change (number_of_functions o1) with 8%nat.
  destruct (Nat.ltb_spec (S (length pts)) 8) as [L|_]; [lia|]. cbn [firstn]. rewrite (small_drop (IP x 1)).
  2:{ intros q' Hq'. apply (firstn_In 7) in Hq'. eapply zero_weights. exact Hq'. } 2:{ simpl; lra. }
  cbv iota. cbn [pe_prev_res pe_prev pe_loop]. unfold pe_continue at 1. cbn [pe_elim orb]. cbv iota. unfold pe_body at 1. cbn [pe_pts pe_iter]. rewrite Fit. cbn [set_weights length].
  change (0 + 1 =? 0)%N with false. cbv iota. rewrite B0. change (0 + 1 <? maximum_iteration)%N with true. cbn [andb]. cbv iota.
  assert (MM : forall n, min_max 0 [IP x 1] (n, maxd, - maxd) = ((if Rlt_dec 1 maxd then 0 else n)%nat, (if Rlt_dec 1 maxd then 1 else maxd), (if Rlt_dec (- maxd) 1 then 1 else - maxd))).
  { intros n. cbn [min_max ip_weight]. destruct (Rlt_dec 1 maxd), (Rlt_dec (- maxd) 1); reflexivity. }
  rewrite MM. destruct (Rlt_dec (- maxd) 1) as [_|N]; [|lra].
  assert (Keep : drop_below (/ 10 ^ 8 * 1) [IP x 1] = [IP x 1]).
  { unfold drop_below. cbn [List.filter ip_weight]. destruct (Rlt_dec 1 (/ 10 ^ 8 * 1)) as [K|_]; [|reflexivity]. exfalso.
    assert (/ 10 ^ 8 <= / 10) by (apply Rinv_le_contravar; [lra|simpl; lra]). lra. }
  rewrite Keep. cbn [length Nat.eqb negb andb orb]. change (min_number_of_points o1) with 1%nat. change (1 <? 1)%nat with false. cbv iota. change (1 <=? 1)%nat with true. cbv iota. cbn [orb].
  destruct (length pts + 2)%nat eqn:EF; cbn [pe_loop]; unfold pe_continue; cbn [pe_elim pe_iter orb]; change (maximum_iteration + 10 + 1 <? maximum_iteration)%N with false; rewrite andb_false_r; cbv iota;
    unfold pe_finish; cbn [pe_iter pe_prev pe_prev_res pe_pts]; change (maximum_iteration <? maximum_iteration + 10 + 1)%N with true; rewrite orb_true_r; cbn [app];
    rewrite (small_drop (IP x 1) []) by (try (intros q' []); simpl; lra); reflexivity.
Qed.
Lemma accepted : exists bps x, in_open (cube 1) x /\
  (exists i j k, moment_index o1 i j k /\ constant_term (cube 1) bps (i, j, k) <> 0) /\
  build_trimmed (solver 1) (fun l => l) everywhere full_state mind maxd unit_bounds o1 target (Some (bps, cube 1)) None = Ok (Some [IP x 1]).
Proof.
  destruct first_points as (q & pts & HA & HL & _ & Hx). exists (opposite (ip_pos q)), (ip_pos q). split; [assumption|]. split.
  { exists 0%nat, 0%nat, 0%nat. split; [simpl; lia|]. unfold constant_term, opposite, flux, dot. cbn -[f_x f_x_int]. unfold f_x_int, f_x. lra. }
  unfold build_trimmed, assemble_ips_trimmed. cbn [eb_global unit_bounds]. rewrite unit_active. change (max_iteration o1) with 3%nat. cbn [assemble_loop].
  destruct (Rlt_dec target maxd) as [_|N]; [|contradiction]. change (number_of_functions o1 * 1)%nat with 8%nat. rewrite (first_distributed _ HA HL). cbv iota. rewrite app_nil_r. rewrite accepted_elimination by (rewrite HL; lia).
  destruct (Rlt_dec (/ 10 ^ 2) 0) as [K|_]; [exfalso; assert (0 < / 10 ^ 2) by (apply Rinv_0_lt_compat, pow_lt; lra); lra|].
  destruct (Rlt_dec target 0) as [K|_]; [lra|]. reflexivity.
Qed.
End Accepted.

(** ** Residual 0: the candidates are returned without fitting *)
Lemma drop_none l : (forall q, In q l -> / 1000 <= ip_weight q) -> drop_below zerotol l = l.
Proof.
  intros H. assert (Z : zerotol <= / 1000) by (unfold zerotol; apply Rinv_le_contravar; [lra|simpl; lra]).
  unfold drop_below. induction l as [|q l IH]; [reflexivity|]. cbn [List.filter]. pose proof (H q (or_introl eq_refl)). destruct (Rlt_dec (ip_weight q) zerotol); [lra|]. f_equal. apply IH. intros p Hp. apply H. right. assumption.
Qed.
Lemma unfitted nnls sort mind maxd bps : permutes sort -> 0 < mind <= / 100 -> 0 < maxd ->
  exists pts, build_trimmed nnls sort everywhere full_state mind maxd unit_bounds (1, 1, 1)%nat 0 (Some (bps, cube 1)) None = Ok (Some pts) /\ length pts = 256%nat.
Proof.
  intros HS Hm HM. destruct first_points as (q & pts & HA & HL & HW & _). set (P := q :: pts) in *.
  set (ct := constant_terms (eb_global unit_bounds) bps (1, 1, 1)%nat).
  assert (EL : forall l, (forall p, In p l -> / 1000 <= ip_weight p) -> point_elimination nnls sort mind maxd unit_bounds (1, 1, 1)%nat 0 ct l [] = Ok (l, mind, l)).
  { intros l Hl. destruct (elimination_spec nnls sort mind maxd unit_bounds (1, 1, 1)%nat 0 HS ct l []) as (S1 & _). rewrite S1 by lra. rewrite app_nil_r, drop_none by assumption. reflexivity. }
  assert (W2 : forall p, In p (P ++ P) -> / 1000 <= ip_weight p) by (intros p Hp; apply in_app_iff in Hp; destruct Hp; auto).
  assert (W4 : forall p, In p ((P ++ P) ++ P ++ P) -> / 1000 <= ip_weight p) by (intros p Hp; apply in_app_iff in Hp; destruct Hp; auto).
  exists ((P ++ P) ++ P ++ P). split.
  - unfold build_trimmed, assemble_ips_trimmed. fold ct. rewrite unit_active. change (max_iteration (1, 1, 1)%nat) with 3%nat. cbn [assemble_loop].
    destruct (Rlt_dec 0 maxd) as [_|N]; [|lra]. change (number_of_functions (1, 1, 1)%nat * 1)%nat with 8%nat. rewrite (first_distributed _ HA HL). cbv iota. unfold P at 1. cbv iota. fold P. rewrite app_nil_r. rewrite EL by assumption.
    destruct (Rlt_dec (/ 10 ^ 2) mind) as [K|_]; [simpl in K; lra|]. destruct (Rlt_dec 0 mind) as [_|N]; [|lra].
    unfold distribute at 1. change (number_of_functions (1, 1, 1)%nat * (2 * 1))%nat with 16%nat. unfold distribute_loop at 1. fold P. rewrite HL. change (64 <? 16)%nat with false. cbv iota. unfold P at 1. cbv iota. fold P. rewrite EL by assumption.
    destruct (Rlt_dec (/ 10 ^ 2) mind) as [K|_]; [simpl in K; lra|].
    unfold distribute at 1. change (number_of_functions (1, 1, 1)%nat * (2 * (2 * 1)))%nat with 32%nat. unfold distribute_loop at 1. rewrite app_length, HL. change (64 + 64 <? 32)%nat with false. cbv iota. unfold P at 1. cbn [app]. cbv iota.
    change (q :: pts ++ P) with (P ++ P). rewrite EL by assumption.
    destruct (Rlt_dec (/ 10 ^ 2) mind) as [K|_]; [simpl in K; lra|]. destruct (Rlt_dec 0 mind) as [_|N]; [reflexivity|lra].
  - rewrite !app_length, HL. reflexivity.
Qed.

(** ** fewer candidates than moments *)
Definition corner_state (b : box) : istate :=
  if Req_EM_T (px (lower b)) 0 then if Req_EM_T (py (lower b)) 0 then if Req_EM_T (pz (lower b)) 0 then Trimmed else Outside else Outside else Outside.
Definition sliver (p : pt) : bool :=
  if Rlt_dec (py p) (px p) then if Rlt_dec (px p) (/ 32) then if Rlt_dec (pz p) (/ 32) then true else false else false else false.
Lemma corner_none b : 0 < px (lower b) \/ 0 < py (lower b) \/ 0 < pz (lower b) -> corner_state b = Outside.
Proof. intros H. unfold corner_state. destruct (Req_EM_T (px (lower b)) 0), (Req_EM_T (py (lower b)) 0), (Req_EM_T (pz (lower b)) 0); try reflexivity. lra. Qed.
Lemma corner_some s : corner_state (cube s) = Trimmed.
Proof. unfold corner_state, cube. cbn. destruct (Req_EM_T 0 0); [reflexivity|lra]. Qed.
Lemma cube_children s : exists c1 c2 c3 c4 c5 c6 c7, child_boxes (cube s) = [cube (s / 2); c1; c2; c3; c4; c5; c6; c7] /\
  (0 < s -> forall c, In c [c1; c2; c3; c4; c5; c6; c7] -> corner_state c = Outside).
Proof.
  do 7 eexists. split.
  - unfold child_boxes, cube. cbv zeta. cbn [lower upper]. unfold pscal, pminus, pplus. cbn [px py pz]. apply f_equal2; [|reflexivity]. f_equal. f_equal; field.
  - intros Hs c Hc. apply corner_none. cbn in Hc. repeat destruct Hc as [<-|Hc]; cbn; try lra.
Qed.
Lemma corner_grow mn mx : (mn <= mx)%nat -> forall n k s u, 0 < s -> 0 < u -> (k + n = mx)%nat ->
  leaves (grow corner_state mn mx n (cube s) (cube u) Trimmed k) = [Node (cube (s / 2 ^ n)) (cube (u / 2 ^ n)) Trimmed (k + n) no_children].
Proof.
  intros Hm. induction n as [|n IH]; intros k s u Hs Hu Hk.
  - cbn [grow]. rewrite leaves_unfold. change (no_child no_children) with true. cbv iota. rewrite Nat.add_0_r. assert (D : forall x, x / 2 ^ 0 = x) by (intros; simpl; field). rewrite !D. reflexivity.
  - rewrite grow_S. assert (W : wants_split mn mx k Trimmed = true) by (unfold wants_split; rewrite orb_true_iff; right; rewrite andb_true_r; apply Nat.ltb_lt; lia). rewrite W.
    destruct (cube_children s) as (c1 & c2 & c3 & c4 & c5 & c6 & c7 & E & O). destruct (cube_children u) as (d1 & d2 & d3 & d4 & d5 & d6 & d7 & E' & _). rewrite E, E'. specialize (O Hs). cbn [combine map].
    assert (N : forall c d, In c [c1; c2; c3; c4; c5; c6; c7] -> make corner_state mn mx n k (c, d) = None) by (intros c d Hc; apply make_none, O, Hc).
    rewrite (N c1), (N c2), (N c3), (N c4), (N c5), (N c6), (N c7) by (simpl; tauto).
    assert (S1 : make corner_state mn mx n k (cube (s / 2), cube (u / 2)) = Some (grow corner_state mn mx n (cube (s / 2)) (cube (u / 2)) Trimmed (S k))) by (unfold make; cbn [fst snd]; rewrite corner_some; reflexivity).
    rewrite S1. rewrite leaves_unfold. cbn [no_child forallb andb flat_map app]. rewrite (IH (S k) (s / 2) (u / 2)) by (try lia; lra). cbn [app]. rewrite Nat.add_succ_comm.
    assert (P : forall x, x / 2 / 2 ^ n = x / 2 ^ S n) by (intros x; simpl; field; apply pow_nonzero; lra). rewrite !P. reflexivity.
Qed.
Definition corner_tree (k : nat) : octree := Oct (grow corner_state (Nat.min k 4) k k (cube 1) (cube 1) Trimmed 0) (Nat.min k 4) k.
Lemma corner_new : octree_new (cube 1) (cube 1) = corner_tree 0.
Proof. reflexivity. Qed.
Lemma corner_step k : octree_refine corner_state (Nat.min (S k) 4) (S k) (corner_tree k) = Some (corner_tree (S k)).
Proof.
  unfold octree_refine. destruct (Nat.ltb_spec (S k) (Nat.min (S k) 4)); [lia|]. unfold corner_tree. cbn [o_root].
  rewrite refine_grow by lia. rewrite Nat.sub_0_r. reflexivity.
Qed.
Lemma corner_points k : exists pts, add_points sliver (1, 1, 1)%nat (corner_tree k) [] = Some pts /\ (length pts < 8)%nat /\ (k = 5%nat -> pts <> []).
Proof.
  set (s := 1 / 2 ^ k). assert (Hs : 0 < s) by (apply Rdiv_lt_0_compat; [lra|apply pow_lt; lra]).
  destruct rule1 as (r & a & b & Er & Ea & Xa & Xb & _).
  assert (LP : leaf_points sliver (1, 1, 1)%nat (cube s) (cube s) Trimmed = Some (List.filter (fun q => sliver (ip_pos q)) (assemble_loops (Pt 0 0 0) (Pt s s s) [a; b] [a; b] [a; b]))).
  { unfold leaf_points, assemble_ips. rewrite Er, Ea. cbn [lower upper cube]. f_equal. apply filter_ext. intros q. change (Box (Pt 0 0 0) (Pt s s s)) with (cube s). rewrite map_same by assumption. reflexivity. }
  eexists. split; [|split].
  - unfold add_points. rewrite points_concat.
    + unfold corner_tree. cbn [o_root app]. rewrite (corner_grow (Nat.min k 4) k ltac:(lia) k 0 1 1) by (try lia; lra). cbn [flat_map n_xyz n_uvw n_status]. fold s. rewrite LP. cbn [or_nil]. rewrite app_nil_r. reflexivity.
    + unfold corner_tree. cbn [o_root]. rewrite (corner_grow (Nat.min k 4) k ltac:(lia) k 0 1 1) by (try lia; lra). intros l [<-|[]]. cbn [n_xyz n_uvw n_status]. fold s. rewrite LP. discriminate.
  - unfold assemble_loops. cbn [flat_map map app lower upper px py pz]. cbn [List.filter]. unfold sliver at 1. cbn [ip_pos px py pz]. destruct (Rlt_dec _ _) as [K|_]; [lra|].
    repeat match goal with |- context [if sliver ?p then _ else _] => destruct (sliver p) end; cbn [length]; lia.
  - intros ->. intros K. assert (Hin : In (IP (Pt (s * fst b) (s * fst a) (s * fst a)) (snd b * s * snd a * s * snd a * s)) (assemble_loops (Pt 0 0 0) (Pt s s s) [a; b] [a; b] [a; b])).
    { unfold assemble_loops. cbn [flat_map map app lower upper px py pz]. rewrite !Rminus_0_r, !(Rabs_right s), !Rplus_0_l by lra. simpl. tauto. }
    assert (Hf : In (IP (Pt (s * fst b) (s * fst a) (s * fst a)) (snd b * s * snd a * s * snd a * s)) (List.filter (fun q => sliver (ip_pos q)) (assemble_loops (Pt 0 0 0) (Pt s s s) [a; b] [a; b] [a; b]))).
    { apply filter_In. split; [assumption|]. unfold sliver. cbn [ip_pos px py pz]. assert (Es : s = / 32) by (unfold s; simpl; field). rewrite Es in *.
      destruct (Rlt_dec (/ 32 * fst a) (/ 32 * fst b)) as [_|N]; [|lra]. destruct (Rlt_dec (/ 32 * fst b) (/ 32)) as [_|N]; [|lra]. destruct (Rlt_dec (/ 32 * fst a) (/ 32)) as [_|N]; [|lra]. reflexivity. }
    rewrite K in Hf. destruct Hf.
Qed.
(** the classification agrees with the point test on all boxes the octree visits *)
Lemma sliver_consistent c p : cell_ok c -> (c_k c <= 5)%nat -> corner_state (dyadic (cube 1) c) = Outside -> in_open (dyadic (cube 1) c) p -> 0 < py p -> sliver p = false.
Proof.
  intros (H1 & H2 & H3) Hk Hs Hp Hy. unfold sliver. destruct (Rlt_dec (py p) (px p)) as [A|A]; [|reflexivity]. destruct (Rlt_dec (px p) (/ 32)) as [B|B]; [|reflexivity]. destruct (Rlt_dec (pz p) (/ 32)) as [C|C]; [|reflexivity].
  exfalso. assert (G : forall i, (1 <= i)%nat -> / 32 <= dy1 0 1 (c_k c) i).
  { intros i Hi. unfold dy1. rewrite Rplus_0_l, Rminus_0_r. assert (1 <= INR i) by (apply (le_INR 1); assumption).
    assert (2 ^ c_k c <= 32). { replace 32 with (2 ^ 5) by (simpl; ring). apply Rle_pow; [lra|assumption]. }
    assert (0 < 2 ^ c_k c) by (apply pow_lt; lra). assert (/ 32 <= 1 / 2 ^ c_k c) by (unfold Rdiv; rewrite Rmult_1_l; apply Rinv_le_contravar; assumption). nra. }
  pose proof (Hp AX) as P1. pose proof (Hp AY) as P2. pose proof (Hp AZ) as P3. cbn [at_ dyadic cube lower upper px py pz] in P1, P2, P3.
  assert (Z : forall i, i = 0%nat -> dy1 0 1 (c_k c) i = 0) by (intros i ->; unfold dy1; simpl; ring).
  unfold corner_state in Hs. cbn [dyadic cube lower upper px py pz] in Hs.
  destruct (Nat.eq_dec (c_i c) 0) as [E1|E1]; [|specialize (G (c_i c) ltac:(lia)); lra]. destruct (Nat.eq_dec (c_j c) 0) as [E2|E2]; [|specialize (G (c_j c) ltac:(lia)); lra].
  destruct (Nat.eq_dec (c_l c) 0) as [E3|E3]; [|specialize (G (c_l c) ltac:(lia)); lra]. rewrite !Z in Hs by assumption. destruct (Req_EM_T 0 0); [discriminate|lra].
Qed.
Lemma too_few nnls sort mind maxd target bps alpha : permutes sort -> mind < target -> target < maxd ->
  build_trimmed nnls sort sliver corner_state mind maxd unit_bounds (1, 1, 1)%nat target (Some (bps, cube 1)) alpha = Undefined.
Proof.
  intros HS Ht HM. unfold build_trimmed, assemble_ips_trimmed. set (ct := constant_terms _ _ _). rewrite unit_active. change (max_iteration (1, 1, 1)%nat) with 3%nat. cbn [assemble_loop].
  destruct (Rlt_dec target maxd) as [_|N]; [|lra]. rewrite corner_new.
  assert (D : exists q pts, distribute sliver corner_state (1, 1, 1)%nat (number_of_functions (1, 1, 1)%nat * 1) [] (corner_tree 0) = Some (q :: pts, corner_tree 5) /\ (length (q :: pts) < 8)%nat).
  { unfold distribute. change (number_of_functions (1, 1, 1)%nat * 1)%nat with 8%nat. cbn [corner_tree o_max]. change (0 + 1)%nat with 1%nat.
    assert (Step : forall n k pts, (length pts < 8)%nat -> exists pts', add_points sliver (1, 1, 1)%nat (corner_tree (S k)) [] = Some pts' /\ (length pts' < 8)%nat /\
      distribute_loop sliver corner_state (1, 1, 1)%nat (S n) 8 (S k) pts (corner_tree k) = distribute_loop sliver corner_state (1, 1, 1)%nat n 8 (S (S k)) pts' (corner_tree (S k))).
    { intros n k pts Hp. destruct (corner_points (S k)) as (pts' & H1 & H2 & _). exists pts'. split; [assumption|]. split; [assumption|].
      cbn [distribute_loop]. destruct (Nat.ltb_spec (length pts) 8); [|lia]. rewrite corner_step, H1. reflexivity. }
    change (Oct (grow corner_state (Nat.min 0 4) 0 0 (cube 1) (cube 1) Trimmed 0) (Nat.min 0 4) 0) with (corner_tree 0).
    destruct (Step 4%nat 0%nat [] ltac:(simpl; lia)) as (p1 & _ & L1 & ->). destruct (Step 3%nat 1%nat p1 L1) as (p2 & _ & L2 & ->). destruct (Step 2%nat 2%nat p2 L2) as (p3 & _ & L3 & ->).
    destruct (Step 1%nat 3%nat p3 L3) as (p4 & _ & L4 & ->). destruct (Step 0%nat 4%nat p4 L4) as (p5 & A5 & L5 & ->).
    destruct (corner_points 5) as (p5' & A5' & _ & NE). rewrite A5 in A5'. injection A5' as <-. specialize (NE eq_refl). destruct p5 as [|q pts]; [contradiction|].
    exists q, pts. split; [|assumption]. cbn [distribute_loop]. destruct (Nat.ltb_spec (length (q :: pts)) 8); reflexivity. }
  destruct D as (q & pts & -> & L). rewrite app_nil_r.
  destruct (elimination_spec nnls sort mind maxd unit_bounds (1, 1, 1)%nat target HS ct (q :: pts) []) as (_ & S2 & _). rewrite S2 by assumption. reflexivity.
Qed.

(** ** a rejected fit whose element is nevertheless created from points of the fictitious domain *)
Definition half_box : box := Box (Pt 0 0 0) (Pt (/ 2) 1 1).
Definition left_half (p : pt) : bool := if Rlt_dec (px p) (/ 2) then true else false.
Definition inward : list bpoint := [BP (Pt (/ 2) (/ 2) (/ 2)) 1 (Pt (-1) 0 0)].
(** the solver that returns x = 0 *)
Definition zero_solver (A : list (list R)) (b : list R) : list R * R := (repeat 0 (length A), l2 b).
Lemma zero_contract : nnls_contract zero_solver.
Proof.
  intros A b _. unfold contract_at, zero_solver. split; [apply repeat_length|]. split; [intros x Hx; apply repeat_spec in Hx; lra|]. split; [apply sqrt_pos|]. apply zeros_residual.
Qed.
Lemma inward_terms : constant_terms (cube 1) inward (1, 1, 1)%nat = [- (/ 6); 0; 0; 0; 0; 0; 0; 0].
Proof.
  unfold constant_terms. change (rows (1, 1, 1)%nat) with [(0,0,0);(0,0,1);(0,1,0);(0,1,1);(1,0,0);(1,0,1);(1,1,0);(1,1,1)]%nat. cbn [map].
  unfold constant_term, inward, flux, dot. cbn -[f_x f_x_int]. unfold f_x_int, f_x, power, power_loop. repeat (f_equal; try field).
Qed.
Lemma inward_l2 : l2 (constant_terms (cube 1) inward (1, 1, 1)%nat) = / 6.
Proof. rewrite inward_terms. unfold l2. cbn [fold_left]. apply sqrt_lem_1; lra. Qed.
(** x = 0 is optimal for this right-hand side: every non-negative x leaves a residual of at least 1/6 *)
Lemma inward_optimal cand x : length x = length cand -> (forall w, In w x -> 0 <= w) ->
  / 6 * / 6 <= rsum (map (fun m => (apply_row (map (column unit_bounds (1, 1, 1)%nat) cand) x m - nth m (constant_terms (cube 1) inward (1, 1, 1)%nat) 0) *
     (apply_row (map (column unit_bounds (1, 1, 1)%nat) cand) x m - nth m (constant_terms (cube 1) inward (1, 1, 1)%nat) 0)) (seq 0 8)).
Proof.
  intros HL HP. set (f := fun m => apply_row (map (column unit_bounds (1, 1, 1)%nat) cand) x m - nth m (constant_terms (cube 1) inward (1, 1, 1)%nat) 0).
  pose proof (sq_sum_le f (seq 0 8) 0%nat ltac:(simpl; tauto)) as K. refine (Rle_trans _ _ _ _ K).
  assert (F0 : f 0%nat = apply_row (map (column unit_bounds (1, 1, 1)%nat) cand) x 0 + / 6) by (unfold f; rewrite inward_terms; simpl; ring).
  assert (P : 0 <= apply_row (map (column unit_bounds (1, 1, 1)%nat) cand) x 0).
  { clear -HP. unfold apply_row. revert x HP. induction cand as [|q cand IH]; intros [|w x] HP; [simpl; lra|simpl; lra|simpl; lra|]. specialize (IH x (fun w' H => HP w' (or_intror H))). specialize (HP w (or_introl eq_refl)).
    cbn [map combine rsum fold_right fst snd]. assert (E : nth 0 (column unit_bounds (1, 1, 1)%nat q) 0 = 1) by (unfold column; simpl; ring). rewrite E. unfold rsum in IH. lra. }
  rewrite F0. nra.
Qed.
Lemma rejected sort mind maxd target alpha : permutes sort -> mind < target -> target < / 100 -> target < maxd -> 0 < alpha ->
  exists pts, assemble_ips_trimmed zero_solver sort left_half full_state mind maxd unit_bounds (1, 1, 1)%nat target inward half_box (Some alpha) = Ok (pts, 1) /\
    build_trimmed zero_solver sort left_half full_state mind maxd unit_bounds (1, 1, 1)%nat target (Some (inward, half_box)) (Some alpha) = Ok (Some pts) /\
    pts <> [] /\ forall q, In q pts -> left_half (to_global (ip_pos q) unit_bounds) = false.
Proof.
  intros HS Ht H1 HM Hal.
  assert (HX : box_ok half_box) by (intros []; simpl; lra). pose proof (active_ok unit_bounds half_box unit_bounds_ok HX) as HU. set (U := active_param unit_bounds half_box) in *.
  set (ct := constant_terms (cube 1) inward (1, 1, 1)%nat).
  assert (EL : forall l, (8 <= length l)%nat -> point_elimination zero_solver sort mind maxd unit_bounds (1, 1, 1)%nat target ct l [] = Ok ([], 1, [])).
  { intros l Hl. unfold point_elimination. rewrite Nat.add_comm. cbn [Nat.add pe_loop]. unfold pe_continue at 1. cbn [pe_elim pe_global pe_iter orb].
    rewrite (proj2 (below_true target mind)) by assumption. change (0 <? maximum_iteration)%N with true. cbn [andb]. cbv iota.
    unfold pe_body at 1. cbn [pe_pts pe_iter]. unfold moment_fitting, zero_solver. change (0 =? 0)%N with true. cbv iota zeta.
    assert (Ls : length (sort (set_weights unit_bounds l (repeat 0 (length (map (column unit_bounds (1, 1, 1)%nat) l))))) = length l) by (rewrite (Permutation_length (HS _)), set_weights_length; reflexivity).
    rewrite Ls. change (number_of_functions (1, 1, 1)%nat) with 8%nat. destruct (Nat.ltb_spec (length l) 8) as [K|_]; [lia|].
    assert (Dn : drop_below zerotol (firstn 8 (sort (set_weights unit_bounds l (repeat 0 (length (map (column unit_bounds (1, 1, 1)%nat) l)))))) = []).
    { destruct (drop_below _ _) as [|q L] eqn:E; [reflexivity|]. exfalso. assert (In q (drop_below zerotol (firstn 8 (sort (set_weights unit_bounds l (repeat 0 (length (map (column unit_bounds (1, 1, 1)%nat) l)))))))) as K by (rewrite E; left; reflexivity).
      apply drop_below_in in K. destruct K as (K1 & K2). apply firstn_In in K1. apply (Permutation_in _ (HS _)) in K1. apply zero_weights in K1. rewrite K1 in K2.
      assert (0 < zerotol) by (unfold zerotol; apply Rinv_0_lt_compat, pow_lt; lra). lra. }
    rewrite Dn. fold ct. unfold ct. rewrite inward_l2. unfold pe_finish. cbn [pe_iter pe_prev pe_prev_res pe_pts pe_global length Nat.eqb negb].
    rewrite andb_false_r. change (maximum_iteration <? 0)%N with false. cbn [orb app]. cbv iota. unfold drop_below. cbn [List.filter]. f_equal. f_equal. f_equal. field. }
  assert (FR : forall l, fresh left_half full_state (1, 1, 1)%nat half_box U l -> (8 <= length l)%nat).
  { intros l (h & t & _ & R1 & A1).
    destruct (all_points full_state left_half half_box U h t (1, 1, 1)%nat HX HU ltac:(simpl; lia) R1) as (pts & A2 & L2 & _).
    { intros p Hp. specialize (Hp AX). simpl in Hp. unfold left_half. destruct (Rlt_dec (px p) (/ 2)); [reflexivity|lra]. }
    rewrite A1 in A2. injection A2 as <-. rewrite L2. pose proof (leaves_nonempty (o_root t)). destruct (leaves (o_root t)); [contradiction|]. simpl. lia. }
  assert (LP : forall n residual fac oct, target < residual -> residual = maxd \/ residual = 1 -> reachable full_state half_box U oct -> (1 <= fac)%nat -> (1 <= n)%nat ->
     assemble_loop zero_solver sort left_half full_state mind maxd unit_bounds (1, 1, 1)%nat target n ct residual fac [] [] oct = Ok ([], 1, false)).
  { induction n as [|n IH]; intros residual fac oct Hr Hc HR Hf Hn; [lia|]. cbn [assemble_loop]. destruct (Rlt_dec target residual) as [_|N]; [|contradiction].
    unfold distribute. destruct (distribute_loop_total left_half full_state (1, 1, 1)%nat half_box U HX HU ltac:(simpl; lia) 5 (number_of_functions (1, 1, 1)%nat * fac) (o_max oct + 1) [] oct HR) as ((pts1 & oct1) & ED). rewrite ED.
    pose proof (distribute_loop_spec _ _ _ _ _ _ _ _ _ _ _ _ HR ED) as (R1 & _ & F1). specialize (F1 ltac:(change (number_of_functions (1, 1, 1)%nat) with 8%nat; simpl; lia) ltac:(lia)). apply FR in F1.
    destruct pts1 as [|q pts1]; [simpl in F1; lia|]. rewrite app_nil_r, EL by assumption. destruct (Rlt_dec (/ 10 ^ 2) 1) as [_|N]; [|simpl in N; lra].
    destruct n as [|n]; [cbn [assemble_loop]; destruct (Rlt_dec target 1); reflexivity|]. apply IH; [lra|right; reflexivity|assumption|lia|lia]. }
  assert (FE : exists l, fictitious left_half unit_bounds (1, 1, 1)%nat alpha [] = Some l /\ l <> []).
  { unfold fictitious. destruct rule1 as (r & a & b & Er & Ea & Xa & Xb & _). rewrite Er, Ea. eexists. split; [reflexivity|]. cbn [app]. intros K.
    assert (In (IP (Pt (0 + (1 - 0) * fst b) (0 + (1 - 0) * fst b) (0 + (1 - 0) * fst b)) (snd b * snd b * snd b * ((1 - 0) * (1 - 0) * (1 - 0) * alpha))) (fictitious_loops left_half unit_bounds alpha [a; b] [a; b] [a; b])) as Hin.
    { unfold fictitious_loops. apply in_flat_map. exists b. split; [simpl; tauto|]. apply in_flat_map. exists b. split; [simpl; tauto|]. apply in_flat_map. exists b. split; [simpl; tauto|].
      cbv zeta. cbn [unit_bounds eb_param cube lower upper px py pz]. change (EB (cube 1) (cube 1)) with unit_bounds. unfold unit_bounds at 1. rewrite map_same by lra. unfold left_half. cbn [px]. destruct (Rlt_dec _ _) as [N|_]; [lra|]. left. reflexivity. }
    rewrite K in Hin. destruct Hin. }
  destruct FE as (l & FE & NE). exists l.
  assert (A : assemble_ips_trimmed zero_solver sort left_half full_state mind maxd unit_bounds (1, 1, 1)%nat target inward half_box (Some alpha) = Ok (l, 1)).
  { unfold assemble_ips_trimmed. fold U. change (constant_terms (eb_global unit_bounds) inward (1, 1, 1)%nat) with ct.
    rewrite LP; [rewrite FE; reflexivity|assumption|left; reflexivity|exists []; reflexivity|lia|simpl; lia]. }
  split; [assumption|]. split; [|split; [assumption|]].
  - unfold build_trimmed. rewrite A. destruct l; [contradiction|reflexivity].
  - destruct (fictitious_spec _ _ _ _ _ _ unit_bounds_ok FE) as (F & -> & _ & HF). intros q Hq. apply HF. exact Hq.
Qed.
