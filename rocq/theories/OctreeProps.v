(** Property C48: octree refinement. *)
From Coq Require Import Arith Reals List Bool Lra Lia.
From Verif Require Import Geo GridStoreModel GgqModel Ggq1dModel GaussModel MappingModel MappingProps GaussProofs GaussProps OctreeModel OctreeSpec OctreeProofs.
Import ListNotations.
Local Open Scope R_scope.

Definition root_cell : cell := Cell 0 0 0 0.
Lemma root_dyadic B : dyadic B root_cell = B.
Proof.
  assert (E : forall lo up, dy1 lo up 0 0 = lo /\ dy1 lo up 0 1 = up) by (intros; unfold dy1; simpl; split; field).
  destruct B as [[a b c] [a' b' c']]. unfold dyadic. cbn [root_cell c_k c_i c_j c_l lower upper px py pz].
  rewrite !(proj1 (E _ _)), !(proj2 (E _ _)). reflexivity.
Qed.
Lemma root_ok : cell_ok root_cell.
Proof. unfold cell_ok. simpl. lia. Qed.
Lemma new_wf state X U : wf state X U root_cell (o_root (octree_new X U)).
Proof. pose proof (wf_leaf state X U root_cell Trimmed) as W. rewrite !root_dyadic in W. exact W. Qed.
Lemma refinements_wf state X U h : forall t t', wf state X U root_cell (o_root t) -> refinements state h t = Some t' -> wf state X U root_cell (o_root t').
Proof.
  induction h as [|(mn & mx) h IH]; intros t t' W H; simpl in H; [injection H as <-; assumption|]. unfold octree_refine in H.
  destruct (mx <? mn)%nat; [discriminate|]. apply IH in H; [assumption|]. apply wf_refine. assumption.
Qed.

(** ** the leaves tile the root box up to cells that were classified as outside *)
Lemma tiling state X U h t : box_ok X -> refinements state h (octree_new X U) = Some t ->
  (forall p, in_closed X p -> (exists l, In l (leaves (o_root t)) /\ in_closed (n_xyz l) p) \/
                              (exists c, cell_ok c /\ (0 < c_k c)%nat /\ in_closed (dyadic X c) p /\ state (dyadic X c) = Outside)) /\
  ForallOrdPairs (fun l l' => apart l l' /\ apart l' l) (leaves (o_root t)) /\
  (forall l, In l (leaves (o_root t)) -> exists c, cell_ok c /\ n_level l = c_k c /\ n_xyz l = dyadic X c /\ n_uvw l = dyadic U c /\
     (c_k c <> 0%nat -> n_status l = state (n_xyz l)) /\ n_status l <> Outside /\
     forall k, (0 < k <= c_k c)%nat -> state (dyadic X (ancestor c k)) <> Outside).
Proof.
  intros HB H. pose proof (refinements_wf state X U h _ _ (new_wf state X U) H) as W. split; [|split].
  - intros p Hp. rewrite <- (root_dyadic X) in Hp. destruct (leaf_cover state X U _ _ p W Hp) as [(c' & l & L & Hc)|(c' & Hok & Hk & Hc & Hst)].
    + left. exists l. split; [eapply at_leaves; exact L|]. destruct (leaf_wf _ _ _ _ _ _ _ L W) as (F & _). apply wf_fields in F. rewrite (proj1 F). assumption.
    + right. exists c'. split; [apply Hok, root_ok|]. auto.
  - eapply leaves_apart; eassumption.
  - intros l Hl. destruct (leaves_at _ root_cell l Hl) as (c & L). exists c. destruct (leaf_wf _ _ _ _ _ _ _ L W) as (F & _). apply wf_fields in F.
    destruct F as (F1 & F2 & F3 & _). destruct (leaf_cell_ok _ _ _ _ L root_ok) as (Hok & _).
    assert (St : c_k c <> 0%nat -> state (dyadic X c) = n_status l /\ n_status l <> Outside) by (intros Hk; eapply leaf_status; eassumption).
    split; [assumption|]. split; [assumption|]. split; [assumption|]. split; [assumption|]. split; [|split].
    + intros Hk. rewrite F1. symmetry. apply St. assumption.
    + destruct (Nat.eq_dec (c_k c) 0) as [E|E]; [|apply St; assumption].
      inversion L as [c0 t0 H0|c0 t0 m t' c0' l0 H0 H1]; subst.
      * clear -H. assert (G : forall h t t', refinements state h t = Some t' -> n_status (o_root t') = n_status (o_root t)).
        { clear. induction h as [|(mn & mx) h IH]; intros t t' H; simpl in H; [congruence|]. unfold octree_refine in H. destruct (mx <? mn)%nat; [discriminate|].
          apply IH in H. rewrite H. apply status_refine. }
        rewrite (G _ _ _ H). discriminate.
      * exfalso. destruct (leaf_cell_ok _ _ _ _ H1 (sub_ok _ _ root_ok)) as (_ & K). simpl in K. lia.
    + apply (leaf_ancestor _ _ _ _ _ _ _ L W).
Qed.
Theorem C48_leaves_tile_the_root : forall state X U h t, box_ok X -> refinements state h (octree_new X U) = Some t ->
  (forall p, in_closed X p -> (exists l, In l (leaves (o_root t)) /\ in_closed (n_xyz l) p) \/
                              (exists c, cell_ok c /\ (0 < c_k c)%nat /\ in_closed (dyadic X c) p /\ state (dyadic X c) = Outside)) /\
  ForallOrdPairs (fun l l' => apart l l' /\ apart l' l) (leaves (o_root t)) /\
  (forall l, In l (leaves (o_root t)) -> exists c, cell_ok c /\ n_level l = c_k c /\ n_xyz l = dyadic X c /\ n_uvw l = dyadic U c /\
     (c_k c <> 0%nat -> n_status l = state (n_xyz l)) /\ n_status l <> Outside /\
     forall k, (0 < k <= c_k c)%nat -> state (dyadic X (ancestor c k)) <> Outside).
Proof. exact tiling. Qed.
Print Assumptions C48_leaves_tile_the_root.

(** ** counters *)
Lemma counters t : number_of_leafs t = length (leaves (o_root t)) /\ number_of_nodes t = length (nodes (o_root t)).
Proof. unfold number_of_leafs, number_of_nodes. rewrite leafs_count, nodes_count. auto. Qed.
Theorem C48_counters_are_exact : forall t, number_of_leafs t = length (leaves (o_root t)) /\ number_of_nodes t = length (nodes (o_root t)).
Proof. exact counters. Qed.
Print Assumptions C48_counters_are_exact.

Section Full.
Variable state : box -> istate.
Hypothesis never : forall b, state b <> Outside.
Lemma full_grow L : forall n a b st k, (k + n = L)%nat ->
  length (leaves (grow state L L n a b st k)) = (8 ^ n)%nat /\ (7 * length (nodes (grow state L L n a b st k)) + 1 = 8 ^ S n)%nat.
Proof.
  induction n as [|n IH]; intros a b st k Hk; [simpl; lia|]. rewrite grow_S.
  assert (W : wants_split L L k st = true) by (unfold wants_split; apply orb_true_iff; left; apply Nat.ltb_lt; lia). rewrite W.
  assert (Mk : forall c, exists s, make state L L n k c = Some (grow state L L n (fst c) (snd c) s (S k))).
  { intros c. unfold make. pose proof (never (fst c)). destruct (state (fst c)); [eexists; reflexivity|contradiction|eexists; reflexivity]. }
  rewrite leaves_unfold. cbn [nodes length].
  assert (Len : length (combine (child_boxes a) (child_boxes b)) = 8%nat) by reflexivity.
  destruct (no_child (map (make state L L n k) (combine (child_boxes a) (child_boxes b)))) eqn:E.
  { exfalso. destruct (combine (child_boxes a) (child_boxes b)) as [|c l]; [discriminate|]. simpl in E. destruct (Mk c) as (s & Ec). rewrite Ec in E. discriminate. }
  assert (Gl : forall l : list (box * box), length (flat_map (fun o => match o with None => [] | Some c => leaves c end) (map (make state L L n k) l)) = (length l * 8 ^ n)%nat).
  { induction l as [|c l IHl]; [reflexivity|]. cbn [map flat_map length]. rewrite app_length, IHl. destruct (Mk c) as (s & ->).
    rewrite (proj1 (IH (fst c) (snd c) s (S k) ltac:(lia))). lia. }
  assert (Gn : forall l : list (box * box), (7 * length (flat_map (fun o => match o with None => [] | Some c => nodes c end) (map (make state L L n k) l)) + length l = length l * 8 ^ S n)%nat).
  { induction l as [|c l IHl]; [reflexivity|]. cbn [map flat_map length]. rewrite app_length. destruct (Mk c) as (s & ->).
    pose proof (proj2 (IH (fst c) (snd c) s (S k) ltac:(lia))) as I2. rewrite Nat.mul_succ_l. lia. }
  rewrite Gl. specialize (Gn (combine (child_boxes a) (child_boxes b))). rewrite Len in *. rewrite !Nat.pow_succ_r' in *. lia.
Qed.
End Full.
Lemma uniform state X U L t : (forall b, state b <> Outside) -> refinements state [(L, L)] (octree_new X U) = Some t ->
  number_of_leafs t = (8 ^ L)%nat /\ (7 * number_of_nodes t + 1 = 8 ^ S L)%nat.
Proof.
  intros N H. simpl in H. unfold octree_refine in H. rewrite Nat.ltb_irrefl in H. injection H as <-. unfold number_of_leafs, number_of_nodes. rewrite leafs_count, nodes_count.
  cbn [o_root octree_new refine]. change (no_child no_children) with true. cbv iota. rewrite Nat.max_id, Nat.sub_0_r. apply full_grow; [assumption|reflexivity].
Qed.
Theorem C48_uniform_refinement_counts : forall state X U L t, (forall b, state b <> Outside) -> refinements state [(L, L)] (octree_new X U) = Some t ->
  number_of_leafs t = (8 ^ L)%nat /\ (7 * number_of_nodes t + 1 = 8 ^ S L)%nat.
Proof. exact uniform. Qed.
Print Assumptions C48_uniform_refinement_counts.

(** ** levels *)
Definition max_of (h : list (nat * nat)) : nat := fold_right (fun c => Nat.max (snd c)) 0%nat h.
Lemma refinements_app state h h' t : refinements state (h ++ h') t = match refinements state h t with None => None | Some t' => refinements state h' t' end.
Proof. revert t. induction h as [|(mn & mx) h IH]; intros t; [reflexivity|]. simpl. destruct (octree_refine state mn mx t); [apply IH|reflexivity]. Qed.
Lemma level_bound state X U h : forall t, refinements state h (octree_new X U) = Some t ->
  forall c l, leaf_at root_cell (o_root t) c l -> (c_k c <= max_of h)%nat.
Proof.
  induction h as [|(mn & mx) h IH] using rev_ind; intros t H c l L.
  - simpl in H. injection H as <-. inversion L as [c0 t0 H0|c0 t0 m t' c0' l0 H0 H1]; subst; [simpl; lia|]. cbn [o_root octree_new n_children] in H0. apply no_children_nth in H0. discriminate.
  - rewrite refinements_app in H. destruct (refinements state h (octree_new X U)) as [t1|] eqn:E; [|discriminate]. specialize (IH t1 eq_refl).
    pose proof (refinements_wf state X U h _ _ (new_wf state X U) E) as W1. simpl in H. unfold octree_refine in H.
    destruct (Nat.ltb_spec mx mn) as [Hlt|Hle]; [discriminate|]. injection H as <-. cbn [o_root] in L.
    destruct (settled_refine state X U mn mx (max_of h) Hle _ _ W1 IH _ _ L) as (_ & Hc).
    unfold max_of in *. rewrite fold_right_app. cbn [fold_right snd].
    assert (G : forall h a, fold_right (fun c : nat * nat => Nat.max (snd c)) a h = Nat.max a (fold_right (fun c => Nat.max (snd c)) 0%nat h)).
    { clear. induction h as [|x h IH]; intros a; simpl; [lia|]. rewrite IH. lia. }
    rewrite G. lia.
Qed.
Lemma levels state X U h mn mx t : refinements state (h ++ [(mn, mx)]) (octree_new X U) = Some t ->
  (mn <= mx)%nat /\ o_min t = mn /\ o_max t = mx /\
  forall l, In l (leaves (o_root t)) -> exists c, n_level l = c_k c /\ n_xyz l = dyadic X c /\
    (n_level l <= max_of (h ++ [(mn, mx)]))%nat /\
    ((mn <= n_level l)%nat /\ (n_status l = Trimmed -> (mx <= n_level l)%nat) \/ forall d, In d (sub_cells c) -> state (dyadic X d) = Outside).
Proof.
  intros H. pose proof (level_bound state X U _ t H) as LB. pose proof (refinements_wf state X U _ _ _ (new_wf state X U) H) as W.
  rewrite refinements_app in H. destruct (refinements state h (octree_new X U)) as [t1|] eqn:E; [|discriminate].
  pose proof (refinements_wf state X U h _ _ (new_wf state X U) E) as W1. simpl in H. unfold octree_refine in H.
  destruct (Nat.ltb_spec mx mn) as [Hlt|Hle]; [discriminate|]. injection H as <-. split; [assumption|]. split; [reflexivity|]. split; [reflexivity|].
  intros l Hl. destruct (leaves_at _ root_cell l Hl) as (c & L). exists c. destruct (leaf_wf _ _ _ _ _ _ _ L W) as (F & _). apply wf_fields in F. destruct F as (F1 & F2 & F3 & _).
  split; [assumption|]. split; [assumption|]. split; [rewrite F3; eapply LB; exact L|]. cbn [o_root] in L.
  destruct (settled_refine state X U mn mx (max_of h) Hle _ _ W1 (level_bound state X U h t1 E) _ _ L) as (S & _).
  rewrite F3. destruct (le_lt_dec mn (c_k c)) as [H1|H1].
  - assert (D : n_status l = Trimmed \/ n_status l <> Trimmed) by (destruct (n_status l); [right|right|left]; congruence).
    destruct D as [D|D]; [|left; split; [assumption|intros K; contradiction]].
    destruct (le_lt_dec mx (c_k c)) as [H2|H2]; [left; auto|]. right. intros d Hd. apply listed_sub in Hd. destruct Hd as (m & Hm & ->). apply S; auto.
  - right. intros d Hd. apply listed_sub in Hd. destruct Hd as (m & Hm & ->). apply S; auto.
Qed.
Theorem C48_leaf_levels : forall state X U h mn mx t, refinements state (h ++ [(mn, mx)]) (octree_new X U) = Some t ->
  (mn <= mx)%nat /\ o_min t = mn /\ o_max t = mx /\
  forall l, In l (leaves (o_root t)) -> exists c, n_level l = c_k c /\ n_xyz l = dyadic X c /\
    (n_level l <= max_of (h ++ [(mn, mx)]))%nat /\
    ((mn <= n_level l)%nat /\ (n_status l = Trimmed -> (mx <= n_level l)%nat) \/ forall d, In d (sub_cells c) -> state (dyadic X d) = Outside).
Proof. exact levels. Qed.
Print Assumptions C48_leaf_levels.

(** ** refining in steps with growing levels gives the same tree as refining once *)
Definition growing (h : list (nat * nat)) (mn mx : nat) : Prop := forall c, In c h -> (fst c <= mn)%nat /\ (snd c <= mx)%nat.
Inductive chain : list (nat * nat) -> Prop :=
| chain_nil : chain []
| chain_snoc h mn mx : chain h -> growing h mn mx -> (mn <= mx)%nat -> chain (h ++ [(mn, mx)]).
Lemma stepwise state X U h : chain h -> forall t, refinements state h (octree_new X U) = Some t -> h = [] \/
  exists mn mx, last h (0, 0)%nat = (mn, mx) /\ refinements state [(mn, mx)] (octree_new X U) = Some t.
Proof.
  induction 1 as [|h mn mx C IH G Hle]; intros t H; [left; reflexivity|]. right. exists mn, mx. split; [apply last_last|].
  rewrite refinements_app in H. destruct (refinements state h (octree_new X U)) as [t1|] eqn:E; [|discriminate]. specialize (IH t1 eq_refl).
  destruct IH as [-> |(m1 & M1 & El & E1)]; [simpl in E; injection E as <-; exact H|].
  rewrite <- H. clear H. simpl. unfold octree_refine. destruct (Nat.ltb_spec mx mn); [lia|]. f_equal. f_equal.
  simpl in E1. unfold octree_refine in E1. destruct (Nat.ltb_spec M1 m1); [discriminate|]. injection E1 as <-. cbn [o_root].
  assert (G1 : (m1 <= mn)%nat /\ (M1 <= mx)%nat).
  { destruct h as [|c h0] using rev_ind; [simpl in El; injection El as <- <-; lia|]. clear IHh0. rewrite last_last in El. subst c. apply (G (m1, M1)). apply in_app_iff. right. left. reflexivity. }
  cbn [refine o_root octree_new]. change (no_child no_children) with true. cbv iota.
  rewrite refine_grow by lia. f_equal. lia.
Qed.
Theorem C48_stepwise_equals_direct : forall state X U h, chain h -> forall t, refinements state h (octree_new X U) = Some t -> h = [] \/
  exists mn mx, last h (0, 0)%nat = (mn, mx) /\ refinements state [(mn, mx)] (octree_new X U) = Some t.
Proof. exact stepwise. Qed.
Print Assumptions C48_stepwise_equals_direct.

(** ** integration points *)
Definition or_nil (o : option (list ipoint)) : list ipoint := match o with Some l => l | None => [] end.
Lemma points_concat inside o : forall t, (forall l, In l (leaves t) -> leaf_points inside o (n_xyz l) (n_uvw l) (n_status l) <> None) ->
  forall acc, points_from inside o t (Some acc) = Some (acc ++ flat_map (fun l => or_nil (leaf_points inside o (n_xyz l) (n_uvw l) (n_status l))) (leaves t)).
Proof.
  induction t as [a b st k ch IH] using node_induction. intros Hs acc. rewrite leaves_unfold in *. cbn [points_from]. destruct (no_child ch).
  - specialize (Hs _ (or_introl eq_refl)). cbn [n_xyz n_uvw n_status flat_map] in *. destruct (leaf_points inside o a b st); [|contradiction]. simpl. rewrite app_nil_r. reflexivity.
  - revert acc. induction ch as [|oc ch IHc]; intros acc; [simpl; rewrite app_nil_r; reflexivity|]. cbn [fold_left flat_map]. cbn [flat_map] in Hs. rewrite flat_map_app. destruct oc as [c|].
    + rewrite (IH c (or_introl eq_refl)) by (intros l Hl; apply Hs, in_app_iff; left; assumption).
      rewrite IHc; [rewrite app_assoc; reflexivity| |].
      * intros c' Hc'. apply IH. right. assumption.
      * intros l Hl. apply Hs, in_app_iff. right. assumption.
    + simpl. apply IHc; [intros c' Hc'; apply IH; right; assumption|]. intros l Hl. apply Hs, in_app_iff. right. assumption.
Qed.
Lemma dyadic_box_ok B c : box_ok B -> box_ok (dyadic B c).
Proof.
  intros HB a. pose proof (HB a) as H. destruct a; cbn -[pow INR dy1]; rewrite dy1_S; cbn [at_] in H;
    match goal with |- _ < _ + ?e => assert (0 < e) by (apply Rdiv_lt_0_compat; [lra|apply pow2_pos]); lra end.
Qed.
Lemma to_global_dyadic X U c p : box_ok X -> box_ok U -> to_global p (EB (dyadic X c) (dyadic U c)) = to_global p (EB X U).
Proof.
  intros HX HU. apply pt_eq. intros a. pose proof (HX a) as Ha. pose proof (HU a) as Hb.
  destruct a; cbn -[pow INR dy1] in *; rewrite !dy1_S;
    match goal with |- context [?y + (?u - ?l) / 2 ^ ?k - ?y] =>
      assert (E : forall z v w, w < v -> Rabs (z + (v - w) / 2 ^ k - z) = (v - w) / 2 ^ k) by
        (intros z v w Hvw; replace (z + (v - w) / 2 ^ k - z) with ((v - w) / 2 ^ k) by ring; apply Rabs_right; left; apply Rdiv_lt_0_compat; [lra|apply pow2_pos]) end;
    rewrite !E by assumption; unfold dy1;
    match goal with |- context [Rabs (?u - ?l) / Rabs (?u' - ?l')] => rewrite (Rabs_right (u - l)) by lra; rewrite (Rabs_right (u' - l')) by lra end;
    pose proof (pow2_pos (c_k c)); field; lra.
Qed.
Lemma octree_points state inside X U h t ou ov ow acc : box_ok X -> box_ok U -> (ou <= 9)%nat -> (ov <= 9)%nat -> (ow <= 9)%nat ->
  refinements state h (octree_new X U) = Some t ->
  exists pts, add_points inside (ou, ov, ow) t acc = Some (acc ++ pts) /\
   (forall q, In q pts -> 0 < ip_weight q /\ in_open U (ip_pos q) /\ exists l, In l (leaves (o_root t)) /\ in_open (n_uvw l) (ip_pos q) /\
      (n_status l = Inside \/ inside (to_global (ip_pos q) (EB X U)) = true)) /\
   (forall l g q, In l (leaves (o_root t)) -> assemble_ips (n_uvw l) (ou, ov, ow) Gauss = Some g -> In q g ->
      (n_status l = Inside \/ inside (to_global (ip_pos q) (EB X U)) = true) -> In q pts).
Proof.
  intros HX HU Hu Hv Hw H. pose proof (refinements_wf state X U h _ _ (new_wf state X U) H) as W.
  assert (F : forall l, In l (leaves (o_root t)) -> exists c g, leaf_at root_cell (o_root t) c l /\ n_xyz l = dyadic X c /\ n_uvw l = dyadic U c /\ assemble_ips (n_uvw l) (ou, ov, ow) Gauss = Some g /\
     forall q, In q g -> in_open (n_uvw l) (ip_pos q) /\ 0 < ip_weight q).
  { intros l Hl. destruct (leaves_at _ root_cell l Hl) as (c & L). destruct (leaf_wf _ _ _ _ _ _ _ L W) as (F & _). apply wf_fields in F. destruct F as (F1 & F2 & _).
    destruct (gauss_points (n_uvw l) ou ov ow Gauss) as (g & Hg & _ & Hq); [rewrite F2; apply dyadic_box_ok; assumption|exact Hu|exact Hv|exact Hw|].
    exists c, g. auto. }
  eexists. split.
  - apply points_concat. intros l Hl. destruct (F l Hl) as (c & g & _ & _ & _ & Hg & _). unfold leaf_points. rewrite Hg. discriminate.
  - split.
    + intros q Hq. apply in_flat_map in Hq. destruct Hq as (l & Hl & Hq). destruct (F l Hl) as (c & g & L & F1 & F2 & Hg & Hin). unfold leaf_points in Hq. rewrite Hg in Hq. cbn [or_nil] in Hq.
      assert (Hqg : In q g) by (destruct (n_status l); [assumption|apply filter_In in Hq; tauto|apply filter_In in Hq; tauto]).
      destruct (Hin q Hqg) as (Ho & Hp). split; [assumption|].
      assert (HoU : in_open U (ip_pos q)).
      { rewrite <- (root_dyadic U). rewrite F2 in Ho. eapply leaf_within_open; eassumption. }
      split; [assumption|]. exists l. split; [assumption|]. split; [assumption|]. rewrite F1, F2 in Hq.
      destruct (n_status l); [left; reflexivity| |]; right; apply filter_In in Hq; destruct Hq as (_ & Hq); rewrite to_global_dyadic in Hq by assumption; assumption.
    + intros l g q Hl Hg Hq HI. apply in_flat_map. exists l. split; [assumption|]. unfold leaf_points. rewrite Hg. cbn [or_nil].
      destruct (F l Hl) as (c & g' & L & F1 & F2 & _ & _). destruct (n_status l); [assumption| |]; apply filter_In; (split; [assumption|]);
        rewrite F1, F2, to_global_dyadic by assumption; destruct HI as [HI|HI]; congruence.
Qed.

Theorem C48_octree_points : forall state inside X U h t ou ov ow acc, box_ok X -> box_ok U -> (ou <= 9)%nat -> (ov <= 9)%nat -> (ow <= 9)%nat ->
  refinements state h (octree_new X U) = Some t ->
  exists pts, add_points inside (ou, ov, ow) t acc = Some (acc ++ pts) /\
   (forall q, In q pts -> 0 < ip_weight q /\ in_open U (ip_pos q) /\ exists l, In l (leaves (o_root t)) /\ in_open (n_uvw l) (ip_pos q) /\
      (n_status l = Inside \/ inside (to_global (ip_pos q) (EB X U)) = true)) /\
   (forall l g q, In l (leaves (o_root t)) -> assemble_ips (n_uvw l) (ou, ov, ow) Gauss = Some g -> In q g ->
      (n_status l = Inside \/ inside (to_global (ip_pos q) (EB X U)) = true) -> In q pts).
Proof. exact octree_points. Qed.
Print Assumptions C48_octree_points.

(** ** instance: the half x >= 1/2 of the unit cube is outside; refining to level 1 leaves four cells *)
Definition unit_cube : box := Box (Pt 0 0 0) (Pt 1 1 1).
Definition half_state (b : box) : istate := if Rle_dec (/ 2) (px (lower b)) then Outside else Inside.
Example C48_example : box_ok unit_cube /\ chain [(1, 1); (1, 2)]%nat /\
  exists t, refinements half_state [(1, 1); (1, 2)]%nat (octree_new unit_cube unit_cube) = Some t /\ number_of_leafs t = 4%nat /\ number_of_nodes t = 5%nat.
Proof.
  split; [intros []; simpl; lra|]. split.
  - apply (chain_snoc [(1, 1)%nat] 1 2); [|intros c [<-|[]]; simpl; lia|lia]. apply (chain_snoc [] 1 1); [constructor|intros c []|lia].
  - eexists. split; [reflexivity|].
    unfold number_of_leafs, number_of_nodes. cbn [o_root octree_new refine]. change (no_child no_children) with true. cbv iota.
    change (Nat.max 1 1 - 0)%nat with 1%nat. rewrite grow_S. change (wants_split 1 1 0 Trimmed) with true. cbv iota.
    assert (O : forall a b n, / 2 <= px (lower a) -> make half_state 1 1 n 0 (a, b) = None).
    { intros a b n H. apply make_none. unfold half_state. simpl. destruct (Rle_dec (/ 2) (px (lower a))); [reflexivity|contradiction]. }
    assert (I : forall a b, ~ / 2 <= px (lower a) -> make half_state 1 1 0 0 (a, b) = Some (Node a b Inside 1 no_children)).
    { intros a b H. unfold make, half_state. cbn [fst snd]. destruct (Rle_dec (/ 2) (px (lower a))); [contradiction|reflexivity]. }
    unfold child_boxes. cbn [combine map].
    repeat match goal with |- context [make half_state 1 1 0 0 (?a, ?b)] => first [rewrite (O a b) by (simpl; lra)|rewrite (I a b) by (simpl; lra)] end.
    split; reflexivity.
Qed.
