(** An element of a cell with one moment, fitted by the solver of the library: an instance of the hypotheses of C67. *)
From Coq Require Import Arith NArith ZArith Reals List Bool Lra Lia Permutation.
From Verif Require Import Geo GridModel GridSpec GridGeoModel GridStoreModel BoxModel GgqModel GgqProofs Ggq1dModel GaussModel GaussProofs GaussProps MappingModel MappingProps PolyModel PolyProps
  OctreeModel OctreeSpec OctreeProofs OctreeProps TrimmedQuadModel TrimmedQuadProofs TrimmedQuadAssemble TrimmedQuadLemmas TrimmedQuadWitness NnlsModel NnlsProps.
Import ListNotations.
Local Open Scope R_scope.

Section OneMoment.
Variables mind maxd target v : R.
Hypothesis Hmin : mind < target.
Hypothesis Hpos : 0 < target.
Hypothesis Hmax : target < maxd.
Hypothesis Hv : zerotol <= v.
Notation o0 := (0, 0, 0)%nat.
Lemma tiny_pos : 0 < zerotol.
Proof. unfold zerotol. apply Rinv_0_lt_compat, pow_lt. lra. Qed.
Lemma v_pos : 0 < v.
Proof. assert (Z := tiny_pos). lra. Qed.
Lemma fit_v q l : moment_fitting qeso_nnls unit_bounds o0 [v] (q :: l) = (IP (ip_pos q) v :: set_weights unit_bounds l (repeat 0 (length l)), 0).
Proof.
  assert (V := v_pos). unfold moment_fitting, qeso_nnls. assert (E : map (column unit_bounds o0) (q :: l) = repeat [1] (length (q :: l))).
  { generalize (q :: l). intros L. induction L as [|a L IH]; [reflexivity|]. cbn [map length repeat]. rewrite one_column, IH. reflexivity. }
  rewrite E, one_row by (cbn [length]; try lia; lra). cbn [set_weights hd tl length]. rewrite unit_det. replace (S (length l) - 1)%nat with (length l) by lia.
  f_equal; [f_equal; f_equal; field|]. unfold Rdiv. ring.
Qed.
Lemma keep_v t x : t <= v -> drop_below t [IP x v] = [IP x v].
Proof. intros H. unfold drop_below. cbn [List.filter ip_weight]. destruct (Rlt_dec v t) as [K|_]; [lra|reflexivity]. Qed.
Lemma elimination_v q pts : point_elimination qeso_nnls (fun l => l) mind maxd unit_bounds o0 target [v] (q :: pts) [] = Ok ([IP (ip_pos q) v], 0, []).
Proof.
  assert (V := v_pos). assert (B0 : below_target target 0 = true) by (apply below_true; assumption).
  assert (Bm : below_target target mind = true) by (apply below_true; assumption).
  unfold point_elimination. rewrite Nat.add_comm. cbn [Nat.add pe_loop]. unfold pe_continue at 1. cbn [pe_elim pe_global pe_iter orb]. rewrite Bm. cbn [andb]. change (0 <? maximum_iteration)%N with true. cbv iota.
  unfold pe_body at 1. cbn [pe_pts pe_iter]. rewrite fit_v. change (0 =? 0)%N with true. cbv iota zeta. destruct q as [x w0]. cbn [ip_pos].
  cbn [length]. rewrite set_weights_length. change (number_of_functions o0) with 1%nat.
  destruct (Nat.ltb_spec (S (length pts)) 1) as [L|_]; [lia|]. cbn [firstn]. rewrite (keep_v zerotol x Hv).
  cbv iota. cbn [pe_prev_res pe_prev pe_loop]. unfold pe_continue at 1. cbn [pe_elim orb]. cbv iota. unfold pe_body at 1. cbn [pe_pts pe_iter]. rewrite fit_v. cbn [set_weights length ip_pos].
  change (0 + 1 =? 0)%N with false. cbv iota. rewrite B0. change (0 + 1 <? maximum_iteration)%N with true. cbn [andb]. cbv iota.
  assert (MM : forall n, min_max 0 [IP x v] (n, maxd, - maxd) = ((if Rlt_dec v maxd then 0 else n)%nat, (if Rlt_dec v maxd then v else maxd), (if Rlt_dec (- maxd) v then v else - maxd))).
  { intros n. cbn [min_max ip_weight]. destruct (Rlt_dec v maxd), (Rlt_dec (- maxd) v); reflexivity. }
  rewrite MM. destruct (Rlt_dec (- maxd) v) as [_|N]; [|lra]. replace (if Rlt_dec v maxd then 0 else 0)%nat with 0%nat by (destruct (Rlt_dec v maxd); reflexivity).
  assert (Keep : drop_below (/ 10 ^ 8 * v) [IP x v] = [IP x v]).
  { apply keep_v. assert (/ 10 ^ 8 <= 1) by (rewrite <- Rinv_1; apply Rinv_le_contravar; [lra|apply pow_R1_Rle; lra]). nra. }
  rewrite Keep. cbn [length Nat.eqb negb andb orb]. change (min_number_of_points o0) with 0%nat. change (0 <? 1)%nat with true. cbv iota. change (erase_at 0 [IP x v]) with (@nil ipoint). cbn [length]. change (0 <=? 0)%nat with true. cbv iota. cbn [orb].
  unfold pe_continue at 1. cbn [pe_elim orb]. cbv iota. unfold pe_body at 1. cbn [pe_pts pe_iter pe_prev pe_prev_res].
  unfold moment_fitting. cbn [map set_weights]. unfold qeso_nnls at 1. rewrite (C62_bad_dimensions [] [v]) by (right; reflexivity). change (maximum_iteration + 10 + 1 =? 0)%N with false. cbv iota.
  change (maximum_iteration + 10 + 1 <? maximum_iteration)%N with false. rewrite andb_false_r.
  unfold pe_continue; cbn [pe_elim pe_iter orb]; change (maximum_iteration + 10 + 1 + 1 <? maximum_iteration)%N with false; rewrite andb_false_r; cbv iota;
    unfold pe_finish; cbn [pe_iter pe_prev pe_prev_res pe_pts]; change (maximum_iteration <? maximum_iteration + 10 + 1 + 1)%N with true; rewrite orb_true_r; cbn [app];
    rewrite (keep_v zerotol x Hv); reflexivity.
Qed.
Variable X : box.
Hypothesis HX : box_ok X.
Definition tree_of : octree := Oct (refine full_state 1 1 (Node X X Trimmed 0 no_children)) 1 1.
Lemma tree_refined : refinements full_state [(1, 1)%nat] (octree_new X X) = Some tree_of.
Proof. reflexivity. Qed.
Lemma points_of : exists q pts, add_points everywhere o0 tree_of [] = Some (q :: pts) /\ in_open X (ip_pos q).
Proof.
  destruct (all_points full_state everywhere X X [(1, 1)%nat] tree_of o0 HX HX ltac:(simpl; lia) tree_refined ltac:(reflexivity)) as (pts & HA & HL & _).
  destruct (uniform full_state X X 1 tree_of ltac:(discriminate) tree_refined) as (HN & _). unfold number_of_leafs in HN. rewrite leafs_count in HN. cbn [Nat.add] in HN. change (8 ^ 1)%nat with 8%nat in HN. rewrite HN in HL.
  destruct pts as [|q pts]; [discriminate|]. exists q, pts. split; [assumption|].
  destruct (octree_points full_state everywhere X X [(1, 1)%nat] tree_of 0 0 0 [] HX HX ltac:(lia) ltac:(lia) ltac:(lia) tree_refined) as (pts' & HA' & HI & _).
  rewrite HA in HA'. cbn [app] in HA'. injection HA' as <-. apply (HI q). left. reflexivity.
Qed.
Lemma distributed_of q pts : add_points everywhere o0 tree_of [] = Some (q :: pts) -> distribute everywhere full_state o0 1 [] (octree_new X X) = Some (q :: pts, tree_of).
Proof.
  intros HA. unfold distribute. change (o_max (octree_new X X) + 1)%nat with 1%nat.
  assert (E : forall n, distribute_loop everywhere full_state o0 n 1 2 (q :: pts) tree_of = Some (q :: pts, tree_of)) by (intros []; reflexivity).
  rewrite <- (E 4%nat). generalize 4%nat. intros n. cbn [distribute_loop]. change (length [] <? 1)%nat with true. cbv iota. change (Nat.min 1 4) with 1%nat.
  change (octree_refine full_state 1 1 (octree_new X X)) with (Some tree_of). cbv iota. rewrite HA. reflexivity.
Qed.
Lemma active_of : active_param unit_bounds X = X.
Proof.
  unfold active_param, to_parametric, compute_scale. cbv zeta. cbn [unit_bounds cube lower upper px py pz eb_global eb_param]. rewrite !Rminus_0_r, Rabs_R1.
  destruct X as [[a b c] [d e f]]. cbn [lower upper px py pz]. f_equal; f_equal; field.
Qed.
Lemma accepted_of bps : constant_term (cube 1) bps o0 = v ->
  exists x, in_open X x /\ build_trimmed qeso_nnls (fun l => l) everywhere full_state mind maxd unit_bounds o0 target (Some (bps, X)) None = Ok (Some [IP x v]).
Proof.
  intros Ev. destruct points_of as (q & pts & HA & Hx). exists (ip_pos q). split; [assumption|].
  unfold build_trimmed, assemble_ips_trimmed. cbn [eb_global unit_bounds]. rewrite active_of. change (max_iteration o0) with 3%nat. cbn [assemble_loop].
  change (constant_terms (cube 1) bps o0) with [constant_term (cube 1) bps o0]. rewrite Ev.
  destruct (Rlt_dec target maxd) as [_|N]; [|contradiction]. change (number_of_functions o0 * 1)%nat with 1%nat. rewrite (distributed_of _ _ HA). cbv iota. rewrite app_nil_r. rewrite elimination_v.
  destruct (Rlt_dec (/ 10 ^ 2) 0) as [K|_]; [exfalso; assert (0 < / 10 ^ 2) by (apply Rinv_0_lt_compat, pow_lt; lra); lra|].
  destruct (Rlt_dec target 0) as [K|_]; [lra|]. reflexivity.
Qed.
(** the solver keeps its promise for these equations *)
Lemma contract_v cand : cand <> [] -> contract_at qeso_nnls (map (column unit_bounds o0) cand) [v].
Proof.
  intros Hc. assert (V := v_pos). assert (E : map (column unit_bounds o0) cand = repeat [1] (length cand)).
  { clear Hc. induction cand as [|a L IH]; [reflexivity|]. cbn [map length repeat]. rewrite one_column, IH. reflexivity. }
  destruct (solved (map (column unit_bounds o0) cand) [v]) as (x & r & mode & S & (C1 & C2) & _ & R0 & _ & M); [discriminate|intros K; apply map_eq_nil in K; contradiction|].
  unfold contract_at, qeso_nnls. rewrite S. split; [exact C1|]. split; [exact C2|]. split; [exact R0|].
  destruct M as [(_ & M & _) | M]; [transitivity (r ^ 2); [ring|]; rewrite M; unfold residual_sq, apply_row, product_entry; f_equal; apply map_ext; intros k; ring|].
  exfalso. subst mode. rewrite E, one_row in S by (first [lra | destruct cand; [contradiction|cbn [length]; lia]]). discriminate.
Qed.
End OneMoment.
