From Coq Require Import Arith Reals List Bool Lra Lia.
From Verif Require Import Geo GridStoreModel GgqModel Ggq1dModel GaussModel MappingModel MappingProps GaussProofs GaussProps OctreeModel OctreeSpec.
Import ListNotations.
Local Open Scope R_scope.

(** induction over trees *)
Lemma node_induction (P : node -> Prop) :
  (forall xyz uvw st lvl ch, (forall c, In (Some c) ch -> P c) -> P (Node xyz uvw st lvl ch)) -> forall t, P t.
Proof.
  intros H. fix IH 1. intros [xyz uvw st lvl ch]. apply H. induction ch as [|[c|] ch IHc].
  - intros c [].
  - intros c' [E|Hc]; [injection E as <-; apply IH|apply IHc; assumption].
  - intros c' [E|Hc]; [discriminate|apply IHc; assumption].
Qed.

(** ** cells *)
Definition bx (m : nat) : nat := nth m [0;1;1;0;0;1;1;0]%nat 0%nat.
Definition by_ (m : nat) : nat := nth m [0;0;1;1;0;0;1;1]%nat 0%nat.
Definition bz (m : nat) : nat := nth m [0;0;0;0;1;1;1;1]%nat 0%nat.
Definition sub (c : cell) (m : nat) : cell := Cell (S (c_k c)) (2 * c_i c + bx m) (2 * c_j c + by_ m) (2 * c_l c + bz m).
Lemma cases8 (P : nat -> Prop) m : (m < 8)%nat -> P 0%nat -> P 1%nat -> P 2%nat -> P 3%nat -> P 4%nat -> P 5%nat -> P 6%nat -> P 7%nat -> P m.
Proof. intros H. do 8 (destruct m as [|m]; [tauto|]). lia. Qed.
Lemma sub_listed c m : (m < 8)%nat -> In (sub c m) (sub_cells c).
Proof. intros H. apply (cases8 (fun m => In (sub c m) (sub_cells c)) m H); unfold sub_cells, sub; simpl; tauto. Qed.
Lemma listed_sub c d : In d (sub_cells c) -> exists m, (m < 8)%nat /\ d = sub c m.
Proof.
  unfold sub_cells. simpl. intros H.
  repeat match goal with H : _ \/ _ |- _ => destruct H as [H|H] end; try contradiction; subst d.
  - exists 0%nat; split; [lia|reflexivity].
  - exists 4%nat; split; [lia|reflexivity].
  - exists 3%nat; split; [lia|reflexivity].
  - exists 7%nat; split; [lia|reflexivity].
  - exists 1%nat; split; [lia|reflexivity].
  - exists 5%nat; split; [lia|reflexivity].
  - exists 2%nat; split; [lia|reflexivity].
  - exists 6%nat; split; [lia|reflexivity].
Qed.
Lemma bits m : (bx m = 0 \/ bx m = 1)%nat /\ (by_ m = 0 \/ by_ m = 1)%nat /\ (bz m = 0 \/ bz m = 1)%nat.
Proof.
  destruct (le_lt_dec 8 m) as [H|H].
  - unfold bx, by_, bz. rewrite !nth_overflow by (simpl; lia). auto.
  - apply (cases8 (fun m => (bx m = 0 \/ bx m = 1) /\ (by_ m = 0 \/ by_ m = 1) /\ (bz m = 0 \/ bz m = 1))%nat m H); simpl; auto.
Qed.
Lemma sub_ok c m : cell_ok c -> cell_ok (sub c m).
Proof. unfold cell_ok, sub. cbn [c_k c_i c_j c_l]. rewrite Nat.pow_succ_r'. destruct (bits m) as ([-> | ->] & [-> | ->] & [-> | ->]); lia. Qed.
Lemma bits_inj m m' : (m < 8)%nat -> (m' < 8)%nat -> bx m = bx m' -> by_ m = by_ m' -> bz m = bz m' -> m = m'.
Proof.
  intros H H'. do 8 (destruct m as [|m]; [do 8 (destruct m' as [|m']; [cbn; congruence|]); lia|]). lia.
Qed.

Lemma pow2_pos k : 0 < 2 ^ k.
Proof. apply pow_lt. lra. Qed.
Lemma dy1_sub lo up k i b : dy1 lo up (S k) (2 * i + b) = dy1 lo up k i + INR b * ((up - lo) / 2 ^ S k).
Proof. unfold dy1. pose proof (pow2_pos k). rewrite plus_INR, mult_INR. simpl (2 ^ S k). simpl (INR 2). field. lra. Qed.
Lemma dy1_S lo up k i : dy1 lo up k (S i) = dy1 lo up k i + (up - lo) / 2 ^ k.
Proof. unfold dy1. rewrite S_INR. ring. Qed.
Lemma half_pow x k : x / 2 ^ k = 2 * (x / 2 ^ S k).
Proof. simpl. pose proof (pow2_pos k). field. lra. Qed.

Lemma child_boxes_dyadic B c m : (m < 8)%nat -> nth_error (child_boxes (dyadic B c)) m = Some (dyadic B (sub c m)).
Proof.
  intros H.
  assert (E : forall b b' : box, (forall a, at_ a (lower b) = at_ a (lower b')) -> (forall a, at_ a (upper b) = at_ a (upper b')) -> Some b = Some b').
  { intros [l u] [l' u'] H1 H2. f_equal. f_equal; apply pt_eq; assumption. }
  apply (cases8 (fun m => nth_error (child_boxes (dyadic B c)) m = Some (dyadic B (sub c m))) m H); cbn [child_boxes nth_error]; apply E; intros [];
    cbn -[pow INR dy1 Nat.mul Nat.add]; rewrite ?dy1_S, ?dy1_sub; simpl INR; rewrite ?(half_pow _ (c_k c));
    match goal with |- context [?x / 2 ^ S (c_k c)] => generalize (x / 2 ^ S (c_k c)); intros e; lra end.
Qed.
Lemma child_boxes_length b : length (child_boxes b) = 8%nat.
Proof. reflexivity. Qed.

(** a cell contains its sub-cells, they cover it, and their interiors do not meet *)
Lemma sub_within B c m p : box_ok B -> in_closed (dyadic B (sub c m)) p -> in_closed (dyadic B c) p.
Proof.
  intros HB Hp a. specialize (HB a). specialize (Hp a). revert Hp HB. destruct (bits m) as (H1 & H2 & H3).
  destruct a; cbn -[pow INR dy1 Nat.mul Nat.add bx by_ bz]; rewrite !dy1_S, !dy1_sub, (half_pow _ (c_k c)); intros Hp HB;
    match goal with |- context [?x / 2 ^ S (c_k c)] => assert (0 < x / 2 ^ S (c_k c)) by (apply Rdiv_lt_0_compat; [lra|apply pow2_pos]); revert H Hp; generalize (x / 2 ^ S (c_k c)) end;
    [destruct H1 as [-> | ->]|destruct H2 as [-> | ->]|destruct H3 as [-> | ->]]; simpl INR; intros e He Hp; lra.
Qed.
Lemma sub_within_open B c m p : box_ok B -> in_open (dyadic B (sub c m)) p -> in_open (dyadic B c) p.
Proof.
  intros HB Hp a. specialize (HB a). specialize (Hp a). revert Hp HB. destruct (bits m) as (H1 & H2 & H3).
  destruct a; cbn -[pow INR dy1 Nat.mul Nat.add bx by_ bz]; rewrite !dy1_S, !dy1_sub, (half_pow _ (c_k c)); intros Hp HB;
    match goal with |- context [?x / 2 ^ S (c_k c)] => assert (0 < x / 2 ^ S (c_k c)) by (apply Rdiv_lt_0_compat; [lra|apply pow2_pos]); revert H Hp; generalize (x / 2 ^ S (c_k c)) end;
    [destruct H1 as [-> | ->]|destruct H2 as [-> | ->]|destruct H3 as [-> | ->]]; simpl INR; intros e He Hp; lra.
Qed.
Lemma index_of_bits a b d : (a = 0 \/ a = 1)%nat -> (b = 0 \/ b = 1)%nat -> (d = 0 \/ d = 1)%nat ->
  exists m, (m < 8)%nat /\ bx m = a /\ by_ m = b /\ bz m = d.
Proof.
  intros [-> | ->] [-> | ->] [-> | ->];
    [exists 0%nat|exists 4%nat|exists 3%nat|exists 7%nat|exists 1%nat|exists 5%nat|exists 2%nat|exists 6%nat]; repeat split; lia.
Qed.
Lemma half_choice lo up k i x : dy1 lo up k i <= x <= dy1 lo up k (S i) ->
  exists b, (b = 0 \/ b = 1)%nat /\ dy1 lo up (S k) (2 * i + b) <= x <= dy1 lo up (S k) (S (2 * i + b)).
Proof.
  intros H. rewrite dy1_S, half_pow in H. destruct (Rle_dec x (dy1 lo up k i + (up - lo) / 2 ^ S k)) as [H'|H'].
  - exists 0%nat. split; [auto|]. rewrite dy1_S, dy1_sub. simpl INR. lra.
  - exists 1%nat. split; [auto|]. rewrite dy1_S, dy1_sub. simpl INR. lra.
Qed.
Lemma sub_cover B c p : in_closed (dyadic B c) p -> exists m, (m < 8)%nat /\ in_closed (dyadic B (sub c m)) p.
Proof.
  intros Hp. pose proof (Hp AX) as HX. pose proof (Hp AY) as HY. pose proof (Hp AZ) as HZ. cbn -[pow INR dy1 Nat.mul Nat.add] in HX, HY, HZ.
  destruct (half_choice _ _ _ _ _ HX) as (a & Ha & HX'). destruct (half_choice _ _ _ _ _ HY) as (b & Hb & HY'). destruct (half_choice _ _ _ _ _ HZ) as (d & Hd & HZ').
  destruct (index_of_bits a b d Ha Hb Hd) as (m & Hm & <- & <- & <-). exists m. split; [assumption|]. intros []; assumption.
Qed.
Lemma half_disjoint lo up k i b b' x : lo < up -> (b = 0 \/ b = 1)%nat -> (b' = 0 \/ b' = 1)%nat ->
  dy1 lo up (S k) (2 * i + b) < x < dy1 lo up (S k) (S (2 * i + b)) -> dy1 lo up (S k) (2 * i + b') <= x <= dy1 lo up (S k) (S (2 * i + b')) -> b = b'.
Proof.
  intros Hl Hb Hb'. rewrite !dy1_S, !dy1_sub. assert (0 < (up - lo) / 2 ^ S k) by (apply Rdiv_lt_0_compat; [lra|apply pow2_pos]).
  revert H. generalize ((up - lo) / 2 ^ S k). intros e He. destruct Hb as [-> | ->], Hb' as [-> | ->]; simpl INR; intros; try reflexivity; lra.
Qed.
Lemma sub_disjoint B c m m' p : box_ok B -> (m < 8)%nat -> (m' < 8)%nat -> in_open (dyadic B (sub c m)) p -> in_closed (dyadic B (sub c m')) p -> m = m'.
Proof.
  intros HB Hm Hm' Hp Hp'. destruct (bits m) as (X & Y & Z). destruct (bits m') as (X' & Y' & Z').
  apply bits_inj; [assumption|assumption| | |].
  - exact (half_disjoint _ _ _ _ _ _ _ (HB AX) X X' (Hp AX) (Hp' AX)).
  - exact (half_disjoint _ _ _ _ _ _ _ (HB AY) Y Y' (Hp AY) (Hp' AY)).
  - exact (half_disjoint _ _ _ _ _ _ _ (HB AZ) Z Z' (Hp AZ) (Hp' AZ)).
Qed.

(** ** ancestors *)
Lemma ancestor_self c : ancestor c (c_k c) = c.
Proof. unfold ancestor. rewrite Nat.sub_diag. cbn [Nat.pow]. rewrite !Nat.div_1_r. destruct c; reflexivity. Qed.
Lemma ancestor_sub c m k : (k <= c_k c)%nat -> ancestor (sub c m) k = ancestor c k.
Proof.
  intros H. unfold ancestor, sub. cbn [c_k c_i c_j c_l]. replace (S (c_k c) - k)%nat with (S (c_k c - k)) by lia. rewrite Nat.pow_succ_r'.
  assert (D : forall i b, (b = 0 \/ b = 1)%nat -> ((2 * i + b) / (2 * 2 ^ (c_k c - k)) = i / 2 ^ (c_k c - k))%nat).
  { intros i b Hb. rewrite <- Nat.div_div by (try apply Nat.pow_nonzero; lia). f_equal. rewrite Nat.mul_comm, Nat.div_add_l by lia.
    destruct Hb as [-> | ->]; simpl; lia. }
  destruct (bits m) as (X & Y & Z). rewrite !D by assumption. reflexivity.
Qed.

(** ** trees over a root box *)
Section Tree.
Variable state : box -> istate.
Variables X U : box.

Inductive wf : cell -> node -> Prop :=
| wf_node c st ch : length ch = 8%nat ->
    (no_child ch = false -> forall m, nth_error ch m = Some None -> state (dyadic X (sub c m)) = Outside) ->
    (forall m t, nth_error ch m = Some (Some t) -> state (dyadic X (sub c m)) = n_status t) ->
    (forall m t, nth_error ch m = Some (Some t) -> n_status t <> Outside) ->
    (forall m t, nth_error ch m = Some (Some t) -> wf (sub c m) t) ->
    wf c (Node (dyadic X c) (dyadic U c) st (c_k c) ch).

(** [leaf_at c t c' l]: the tree t at cell c has the leaf l at cell c' *)
Inductive leaf_at : cell -> node -> cell -> node -> Prop :=
| la_self c t : is_leaf t = true -> leaf_at c t c t
| la_child c t m t' c' l : nth_error (n_children t) m = Some (Some t') -> leaf_at (sub c m) t' c' l -> leaf_at c t c' l.

Lemma no_child_none ch m t : no_child ch = true -> nth_error ch m = Some (Some t) -> False.
Proof. unfold no_child. rewrite forallb_forall. intros H E. apply nth_error_In in E. specialize (H _ E). discriminate. Qed.
Lemma no_children_nth m o : nth_error no_children m = Some o -> o = None.
Proof. unfold no_children. intros H. apply nth_error_In, repeat_spec in H. assumption. Qed.

Lemma status_grow mn mx n a b st k : n_status (grow state mn mx n a b st k) = st /\ n_xyz (grow state mn mx n a b st k) = a /\ n_level (grow state mn mx n a b st k) = k.
Proof. destruct n; simpl; [auto|]. destruct (wants_split mn mx k st); auto. Qed.
Lemma status_refine mn mx t : n_status (refine state mn mx t) = n_status t.
Proof. destruct t as [a b st k ch]. simpl. destruct (no_child ch); [apply status_grow|reflexivity]. Qed.

Lemma map_children c (f : box * box -> option node) m : (m < 8)%nat ->
  nth_error (map f (combine (child_boxes (dyadic X c)) (child_boxes (dyadic U c)))) m = Some (f (dyadic X (sub c m), dyadic U (sub c m))).
Proof.
  intros H. pose proof (child_boxes_dyadic X c m H) as E1. pose proof (child_boxes_dyadic U c m H) as E2.
  rewrite nth_error_map. cut (nth_error (combine (child_boxes (dyadic X c)) (child_boxes (dyadic U c))) m = Some (dyadic X (sub c m), dyadic U (sub c m))); [intros ->; reflexivity|].
  revert E1 E2. generalize (child_boxes (dyadic X c)) (child_boxes (dyadic U c)). generalize (dyadic X (sub c m)) (dyadic U (sub c m)). clear. intros x y l. revert m. induction l as [|a l IH]; intros [|m] [|b l'] E1 E2; try discriminate; simpl in *.
  - congruence.
  - apply IH; assumption.
Qed.
Definition make mn mx n lvl (c : box * box) : option node :=
  match state (fst c) with Outside => None | s => Some (grow state mn mx n (fst c) (snd c) s (S lvl)) end.
Lemma grow_S mn mx n a b st k : grow state mn mx (S n) a b st k =
  if wants_split mn mx k st then Node a b st k (map (make mn mx n k) (combine (child_boxes a) (child_boxes b))) else Node a b st k no_children.
Proof. reflexivity. Qed.
Lemma children_nth mn mx n c m o : nth_error (map (make mn mx n (c_k c)) (combine (child_boxes (dyadic X c)) (child_boxes (dyadic U c)))) m = Some o ->
  (m < 8)%nat /\ o = make mn mx n (c_k c) (dyadic X (sub c m), dyadic U (sub c m)).
Proof.
  intros H. assert (Hm : (m < 8)%nat).
  { assert (H0 := H). assert (N : nth_error (map (make mn mx n (c_k c)) (combine (child_boxes (dyadic X c)) (child_boxes (dyadic U c)))) m <> None) by congruence. apply nth_error_Some in N. rewrite map_length, combine_length, !child_boxes_length in N. simpl in N. lia. }
  split; [assumption|]. rewrite map_children in H by assumption. congruence.
Qed.
Lemma make_none mn mx n k c : make mn mx n k c = None <-> state (fst c) = Outside.
Proof. unfold make. destruct (state (fst c)); split; congruence. Qed.
Lemma make_some mn mx n k c t : make mn mx n k c = Some t -> t = grow state mn mx n (fst c) (snd c) (state (fst c)) (S k) /\ state (fst c) <> Outside.
Proof. unfold make. destruct (state (fst c)); intros H; try discriminate; injection H as <-; split; congruence. Qed.

Lemma wf_leaf c st : wf c (Node (dyadic X c) (dyadic U c) st (c_k c) no_children).
Proof.
  constructor; [reflexivity|discriminate| | |]; intros m t H; apply no_children_nth in H; discriminate.
Qed.
Lemma wf_grow mn mx n : forall c st, wf c (grow state mn mx n (dyadic X c) (dyadic U c) st (c_k c)).
Proof.
  induction n as [|n IH]; intros c st; [apply wf_leaf|]. rewrite grow_S. destruct (wants_split mn mx (c_k c) st); [|apply wf_leaf].
  constructor.
  - rewrite map_length, combine_length. reflexivity.
  - intros _ m H. apply children_nth in H. destruct H as (Hm & H). symmetry in H. apply make_none in H. exact H.
  - intros m t H. apply children_nth in H. destruct H as (Hm & H). symmetry in H. apply make_some in H. destruct H as (-> & _). rewrite (proj1 (status_grow _ _ _ _ _ _ _)). reflexivity.
  - intros m t H. apply children_nth in H. destruct H as (Hm & H). symmetry in H. apply make_some in H. destruct H as (-> & H). rewrite (proj1 (status_grow _ _ _ _ _ _ _)). exact H.
  - intros m t H. apply children_nth in H. destruct H as (Hm & H). symmetry in H. apply make_some in H. destruct H as (-> & _). apply (IH (sub c m)).
Qed.
Lemma nth_map_option (f : node -> node) ch m o : nth_error (map (fun o => match o with None => None | Some c => Some (f c) end) ch) m = Some o ->
  exists o', nth_error ch m = Some o' /\ o = match o' with None => None | Some c => Some (f c) end.
Proof. rewrite nth_error_map. destruct (nth_error ch m) as [o'|]; simpl; intros H; [|discriminate]. exists o'. split; congruence. Qed.
Lemma no_child_map (f : node -> node) ch : no_child (map (fun o => match o with None => None | Some c => Some (f c) end) ch) = no_child ch.
Proof. unfold no_child. induction ch as [|[c|] ch IH]; simpl; congruence. Qed.
Lemma wf_refine mn mx : forall c t, wf c t -> wf c (refine state mn mx t).
Proof.
  induction 1 as [c st ch Hl Hn Hs Ho Hw IH]. cbn [refine]. destruct (no_child ch) eqn:E; [apply wf_grow|]. constructor.
  - rewrite map_length. assumption.
  - rewrite no_child_map. intros _ m H. apply nth_map_option in H. destruct H as ([t|] & H & H'); [discriminate|]. apply Hn; [reflexivity|assumption].
  - intros m t H. apply nth_map_option in H. destruct H as ([t'|] & H & H'); [|discriminate]. injection H' as ->. rewrite status_refine. apply Hs. assumption.
  - intros m t H. apply nth_map_option in H. destruct H as ([t'|] & H & H'); [|discriminate]. injection H' as ->. rewrite status_refine. apply (Ho m). assumption.
  - intros m t H. apply nth_map_option in H. destruct H as ([t'|] & H & H'); [|discriminate]. injection H' as ->. apply (IH m). assumption.
Qed.

(** ** leaves of a well formed tree *)
Lemma wf_fields c t : wf c t -> n_xyz t = dyadic X c /\ n_uvw t = dyadic U c /\ n_level t = c_k c /\ length (n_children t) = 8%nat.
Proof. intros [c0 st ch Hl _ _ _ _]. auto. Qed.
Lemma wf_child c t m t' : wf c t -> nth_error (n_children t) m = Some (Some t') -> wf (sub c m) t' /\ state (dyadic X (sub c m)) = n_status t' /\ n_status t' <> Outside /\ (m < 8)%nat.
Proof.
  intros [c0 st ch Hl _ Hs Ho Hw] H. cbn [n_children] in H. split; [apply (Hw m); assumption|]. split; [apply Hs; assumption|]. split; [apply (Ho m); assumption|].
  rewrite <- Hl. apply nth_error_Some. congruence.
Qed.
Lemma leaf_wf c t c' l : leaf_at c t c' l -> wf c t -> wf c' l /\ is_leaf l = true.
Proof. induction 1 as [c t H|c t m t' c' l H Hl IH]; intros W; [auto|]. apply IH. apply (wf_child _ _ _ _ W H). Qed.
Lemma leaf_cell_ok c t c' l : leaf_at c t c' l -> cell_ok c -> cell_ok c' /\ (c_k c <= c_k c')%nat.
Proof.
  induction 1 as [c t H|c t m t' c' l H Hl IH]; intros W; [auto|]. destruct (IH (sub_ok _ _ W)) as (A & B). split; [assumption|]. simpl in B. lia.
Qed.
Lemma leaf_within c t c' l p : box_ok X -> leaf_at c t c' l -> in_closed (dyadic X c') p -> in_closed (dyadic X c) p.
Proof. intros HB. induction 1 as [c t H|c t m t' c' l H Hl IH]; intros Hp; [auto|]. eapply sub_within; [assumption|]. apply IH. assumption. Qed.
Lemma leaf_within_open c t c' l p : box_ok X -> leaf_at c t c' l -> in_open (dyadic X c') p -> in_open (dyadic X c) p.
Proof. intros HB. induction 1 as [c t H|c t m t' c' l H Hl IH]; intros Hp; [auto|]. eapply sub_within_open; [assumption|]. apply IH. assumption. Qed.
Lemma leaf_status c t c' l : leaf_at c t c' l -> wf c t -> c_k c' <> c_k c -> state (dyadic X c') = n_status l /\ n_status l <> Outside.
Proof.
  induction 1 as [c t H|c t m t' c' l H Hl IH]; intros W N; [contradiction|]. destruct (wf_child _ _ _ _ W H) as (W' & Hs & Ho & Hm).
  inversion Hl; subst.
  - auto.
  - apply IH; [assumption|]. intros E. assert (K : forall a t a' l, leaf_at a t a' l -> (c_k a <= c_k a')%nat).
    { induction 1; [lia|]. simpl in *. lia. }
    specialize (K _ _ _ _ H1). simpl in *. lia.
Qed.
Lemma leaf_ancestor c t c' l : leaf_at c t c' l -> wf c t -> ancestor c' (c_k c) = c /\
  forall k, (c_k c < k <= c_k c')%nat -> state (dyadic X (ancestor c' k)) <> Outside.
Proof.
  induction 1 as [c t H|c t m t' c' l H Hl IH]; intros W.
  - split; [apply ancestor_self|]. intros k Hk. lia.
  - destruct (wf_child _ _ _ _ W H) as (W' & Hs & Ho & Hm). destruct (IH W') as (A & B). cbn [sub c_k] in A, B.
    assert (K : (S (c_k c) <= c_k c')%nat).
    { assert (K : forall a t a' l, leaf_at a t a' l -> (c_k a <= c_k a')%nat) by (induction 1; [lia|]; simpl in *; lia). apply K in Hl. exact Hl. }
    split.
    + rewrite <- (ancestor_self c), <- (ancestor_sub c m) by lia. rewrite <- A at 2.
      (* ancestor of ancestor *)
      clear -K. unfold ancestor. cbn [c_k c_i c_j c_l]. replace (c_k c' - c_k c)%nat with (S (c_k c' - S (c_k c))) by lia.
      replace (S (c_k c) - c_k c)%nat with 1%nat by lia. rewrite Nat.pow_succ_r'. change (2 ^ 1)%nat with 2%nat.
      rewrite !Nat.div_div by (try apply Nat.pow_nonzero; lia). rewrite (Nat.mul_comm 2). reflexivity.
    + intros k Hk. destruct (Nat.eq_dec k (S (c_k c))) as [-> |Hne].
      * rewrite A. congruence.
      * apply B. lia.
Qed.

(** coverage *)
Lemma leaf_cover : forall t c p, wf c t -> in_closed (dyadic X c) p ->
  (exists c' l, leaf_at c t c' l /\ in_closed (dyadic X c') p) \/
  (exists c', (cell_ok c -> cell_ok c') /\ (c_k c < c_k c')%nat /\ in_closed (dyadic X c') p /\ state (dyadic X c') = Outside).
Proof.
  intros t c p W. induction W as [c st ch Hl Hn Hs Ho Hw IH]. intros Hp.
  destruct (no_child ch) eqn:E.
  - left. eexists c, _. split; [|exact Hp]. apply la_self. exact E.
  - destruct (sub_cover X c p Hp) as (m & Hm & Hp'). destruct (nth_error ch m) as [[t'|]|] eqn:En.
    + destruct (IH m t' En Hp') as [(c' & l & HL & Hc)|(c' & Hok & Hk & Hc & Hst)].
      * left. exists c', l. split; [|assumption]. eapply la_child; [exact En|exact HL].
      * right. exists c'. split; [intros K; apply Hok, sub_ok, K|]. split; [simpl in Hk; lia|]. auto.
    + right. exists (sub c m). split; [apply sub_ok|]. split; [simpl; lia|]. split; [assumption|]. apply (Hn eq_refl). assumption.
    + apply nth_error_None in En. lia.
Qed.

(** the list of leaves *)
Lemma leaves_unfold a b st k ch : leaves (Node a b st k ch) =
  if no_child ch then [Node a b st k ch] else flat_map (fun o => match o with None => [] | Some c => leaves c end) ch.
Proof.
  unfold leaves. cbn [nodes List.filter]. unfold childless at 1. cbn [n_children]. fold (no_child ch).
  assert (E : List.filter childless (flat_map (fun o => match o with None => [] | Some c => nodes c end) ch) =
              flat_map (fun o => match o with None => [] | Some c => List.filter childless (nodes c) end) ch).
  { clear. induction ch as [|[c|] ch IH]; simpl; [reflexivity| |exact IH]. rewrite filter_app, IH. reflexivity. }
  rewrite E. destruct (no_child ch) eqn:N; [|reflexivity].
  assert (Z : flat_map (fun o => match o with None => [] | Some c => List.filter childless (nodes c) end) ch = []).
  { clear -N. unfold no_child in N. induction ch as [|[c|] ch IH]; simpl in *; [reflexivity|discriminate|]. apply IH. assumption. }
  rewrite Z. reflexivity.
Qed.
Lemma leaves_at : forall t c l, In l (leaves t) -> exists c', leaf_at c t c' l.
Proof.
  induction t as [a b st k ch IH] using node_induction. intros c l. rewrite leaves_unfold. destruct (no_child ch) eqn:E.
  - intros [<-|[]]. exists c. apply la_self. exact E.
  - rewrite in_flat_map. intros ([t'|] & Hin & Hl); [|contradiction]. destruct (In_nth_error _ _ Hin) as (m & Hm).
    destruct (IH t' Hin (sub c m) l Hl) as (c' & HL). exists c'. eapply la_child; [exact Hm|exact HL].
Qed.
Lemma at_leaves c t c' l : leaf_at c t c' l -> In l (leaves t).
Proof.
  induction 1 as [c t H|c t m t' c' l H Hl IH].
  - destruct t as [a b st k ch]. rewrite leaves_unfold. unfold is_leaf in H. simpl in H. rewrite H. left. reflexivity.
  - destruct t as [a b st k ch]. rewrite leaves_unfold. cbn [n_children] in H. destruct (no_child ch) eqn:E.
    + exfalso. eapply no_child_none; eassumption.
    + apply in_flat_map. exists (Some t'). split; [apply nth_error_In with m; assumption|assumption].
Qed.

(** interiors of different leaves do not meet *)
Definition apart (l l' : node) : Prop := forall p, in_open (n_xyz l) p -> in_closed (n_xyz l') p -> False.
Lemma pairs_app {A} (R0 : A -> A -> Prop) l l' : ForallOrdPairs R0 l -> ForallOrdPairs R0 l' -> (forall x y, In x l -> In y l' -> R0 x y) -> ForallOrdPairs R0 (l ++ l').
Proof.
  induction 1 as [|x l Hx Hl IH]; intros H' Hx'; [exact H'|]. simpl. constructor.
  - apply Forall_app. split; [assumption|]. apply Forall_forall. intros y Hy. apply Hx'; [left; reflexivity|assumption].
  - apply IH; [assumption|]. intros a b Ha Hb. apply Hx'; [right; assumption|assumption].
Qed.
Lemma leaves_apart : box_ok X -> forall t c, wf c t -> ForallOrdPairs (fun l l' => apart l l' /\ apart l' l) (leaves t).
Proof.
  intros HB. induction t as [a b st k ch IH] using node_induction. intros c W. rewrite leaves_unfold. destruct (no_child ch) eqn:E.
  - constructor; constructor.
  - assert (G : forall m0 suf, (forall m o, nth_error suf m = Some o -> nth_error ch (m0 + m) = Some o) ->
       ForallOrdPairs (fun l l' => apart l l' /\ apart l' l) (flat_map (fun o => match o with None => [] | Some c => leaves c end) suf)).
    { intros m0 suf. revert m0. induction suf as [|o suf IHs]; intros m0 Hsuf; [constructor|]. cbn [flat_map].
      assert (Hsuf' : forall m o, nth_error suf m = Some o -> nth_error ch (S m0 + m) = Some o).
      { intros m o' H. specialize (Hsuf (S m) o' H). replace (S m0 + m)%nat with (m0 + S m)%nat by lia. exact Hsuf. }
      specialize (IHs (S m0) Hsuf'). pose proof (Hsuf 0%nat o eq_refl) as Ho. rewrite Nat.add_0_r in Ho.
      destruct o as [t'|]; [|exact IHs].
      destruct (wf_child _ _ _ _ W Ho) as (W' & _ & _ & Hm).
      apply pairs_app; [apply (IH t' (nth_error_In _ _ Ho) _ W')|exact IHs|].
      intros l l' Hl Hl'. apply in_flat_map in Hl'. destruct Hl' as ([t2|] & Hin & Hl'); [|contradiction].
      destruct (In_nth_error _ _ Hin) as (m2 & Hm2). pose proof (Hsuf' _ _ Hm2) as Ho2. destruct (wf_child _ _ _ _ W Ho2) as (W2 & _ & _ & Hmm).
      destruct (leaves_at t' (sub c m0) l Hl) as (c1 & L1). destruct (leaves_at t2 (sub c (S m0 + m2)) l' Hl') as (c2 & L2).
      destruct (leaf_wf _ _ _ _ L1 W') as (F1 & _). destruct (leaf_wf _ _ _ _ L2 W2) as (F2 & _).
      apply wf_fields in F1, F2. destruct F1 as (F1 & _). destruct F2 as (F2 & _).
      split; intros p; rewrite F1, F2; intros Hp Hp'.
      - assert (m0 = (S m0 + m2)%nat); [|lia]. eapply (sub_disjoint X c _ _ p HB); try assumption; [eapply leaf_within_open; eassumption|eapply leaf_within; eassumption].
      - assert ((S m0 + m2)%nat = m0); [|lia]. eapply (sub_disjoint X c _ _ p HB); try assumption; [eapply leaf_within_open; eassumption|eapply leaf_within; eassumption]. }
    apply (G 0%nat). intros m o H. exact H.
Qed.

(** counters *)
Lemma leafs_count : forall t v, leafs_from t v = (v + length (leaves t))%nat.
Proof.
  induction t as [a b st k ch IH] using node_induction. intros v. rewrite leaves_unfold. cbn [leafs_from]. destruct (no_child ch); [simpl; lia|].
  revert v. induction ch as [|o ch IHc]; intros v; [simpl; lia|]. cbn [fold_left flat_map]. rewrite app_length.
  rewrite IHc by (intros c Hc; apply IH; right; assumption). destruct o as [c|]; [|simpl; lia]. rewrite (IH c (or_introl eq_refl)). lia.
Qed.
Lemma nodes_count : forall t v, nodes_from t v = (v + length (nodes t))%nat.
Proof.
  induction t as [a b st k ch IH] using node_induction. intros v. cbn [nodes_from nodes length]. destruct (no_child ch) eqn:N.
  - assert (Z : flat_map (fun o => match o with None => [] | Some c => nodes c end) ch = []).
    { clear -N. unfold no_child in N. induction ch as [|[c|] ch IH]; simpl in *; [reflexivity|discriminate|]. apply IH. assumption. }
    rewrite Z. simpl. lia.
  - clear N. rewrite Nat.add_succ_r, <- Nat.add_succ_l. generalize (S v). induction ch as [|o ch IHc]; intros w; [simpl; lia|]. cbn [fold_left flat_map]. rewrite app_length.
    rewrite IHc by (intros c Hc; apply IH; right; assumption). destruct o as [c|]; [|simpl; lia]. rewrite (IH c (or_introl eq_refl)). lia.
Qed.

(** ** levels *)
Definition settled (mn mx : nat) (c : cell) (l : node) : Prop :=
  (c_k c < mn)%nat \/ ((c_k c < mx)%nat /\ n_status l = Trimmed) -> forall m, (m < 8)%nat -> state (dyadic X (sub c m)) = Outside.
Lemma settled_grow mn mx : (mn <= mx)%nat -> forall n c st c' l, (mx - c_k c <= n)%nat ->
  leaf_at c (grow state mn mx n (dyadic X c) (dyadic U c) st (c_k c)) c' l -> settled mn mx c' l /\ (c_k c' <= Nat.max mx (c_k c))%nat.
Proof.
  intros Hmm. induction n as [|n IH]; intros c st c' l Hn H.
  - inversion H as [c0 t0 H0|c0 t0 m t' c0' l0 H0 H1]; subst.
    + split; [|lia]. intros Hc. lia.
    + cbn [grow n_children] in H0. apply no_children_nth in H0. discriminate.
  - rewrite grow_S in H. destruct (wants_split mn mx (c_k c) st) eqn:W.
    + inversion H as [c0 t0 H0|c0 t0 m t' c0' l0 H0 H1]; subst.
      * split; [|lia]. intros _ m Hm. unfold is_leaf in H0. cbn [n_children] in H0.
        pose proof (map_children c' (make mn mx n (c_k c')) m Hm) as Em. apply nth_error_In in Em. unfold no_child in H0. rewrite forallb_forall in H0. specialize (H0 _ Em).
        destruct (make mn mx n (c_k c') (dyadic X (sub c' m), dyadic U (sub c' m))) eqn:Mk; [discriminate|]. apply make_none in Mk. exact Mk.
      * cbn [n_children] in H0. apply children_nth in H0. destruct H0 as (Hm & H0). symmetry in H0. apply make_some in H0. destruct H0 as (-> & Ho).
        cbn [fst snd] in H1. apply (IH (sub c m)) in H1; [|simpl; lia]. destruct H1 as (S1 & S2). split; [assumption|].
        assert (c_k c < mx)%nat.
        { unfold wants_split in W. apply orb_true_iff in W. destruct W as [W|W]; [apply Nat.ltb_lt in W; lia|]. apply andb_true_iff in W. destruct W as (W & _). apply Nat.ltb_lt in W. lia. }
        simpl in S2. lia.
    + inversion H as [c0 t0 H0|c0 t0 m t' c0' l0 H0 H1]; subst.
      * split; [|lia]. intros Hc. exfalso. unfold wants_split in W. apply orb_false_iff in W. destruct W as (W1 & W2). apply Nat.ltb_ge in W1. cbn [n_status] in Hc.
        destruct Hc as [Hc|(Hc & ->)]; [lia|]. apply Nat.ltb_lt in Hc. rewrite Hc in W2. discriminate.
      * cbn [grow n_children] in H0. apply no_children_nth in H0. discriminate.
Qed.
Lemma settled_refine mn mx M : (mn <= mx)%nat -> forall c t, wf c t -> (forall c' l, leaf_at c t c' l -> (c_k c' <= M)%nat) ->
  forall c' l, leaf_at c (refine state mn mx t) c' l -> settled mn mx c' l /\ (c_k c' <= Nat.max mx M)%nat.
Proof.
  intros Hmm c t W. induction W as [c st ch Hl Hn Hs Ho Hw IH]. intros HM c' l H. cbn [refine] in H. destruct (no_child ch) eqn:E.
  - apply settled_grow in H; [|assumption|lia]. destruct H as (H1 & H2). split; [assumption|].
    assert (c_k c <= M)%nat by (apply (HM c (Node (dyadic X c) (dyadic U c) st (c_k c) ch)); apply la_self; exact E). lia.
  - inversion H as [c0 t0 H0|c0 t0 m t' c0' l0 H0 H1]; subst.
    + unfold is_leaf in H0. cbn [n_children] in H0. rewrite no_child_map in H0. congruence.
    + cbn [n_children] in H0. apply nth_map_option in H0. destruct H0 as ([t2|] & H0 & H2); [|discriminate]. injection H2 as ->.
      apply (IH m t2 H0); [|assumption]. intros c2 l2 HL2. apply (HM c2 l2). eapply la_child; [exact H0|exact HL2].
Qed.

(** refining step by step gives the same tree as refining at once *)
Lemma refine_grow m1 M1 m2 M2 : (m1 <= m2)%nat -> (M1 <= M2)%nat -> (m2 <= M2)%nat -> forall n1 a b st k,
  refine state m2 M2 (grow state m1 M1 n1 a b st k) = grow state m2 M2 (M2 - k) a b st k.
Proof.
  intros Hm HM H2. assert (Hmax : Nat.max m2 M2 = M2) by lia.
  assert (Leaf : forall a b st k, refine state m2 M2 (Node a b st k no_children) = grow state m2 M2 (M2 - k) a b st k).
  { intros a b st k. cbn [refine]. change (no_child no_children) with true. rewrite Hmax. reflexivity. }
  induction n1 as [|n1 IH]; intros a b st k; [apply Leaf|]. rewrite grow_S. destruct (wants_split m1 M1 k st) eqn:W; [|apply Leaf].
  assert (W2 : wants_split m2 M2 k st = true /\ (k < M2)%nat).
  { unfold wants_split in *. apply orb_true_iff in W. destruct W as [W|W].
    - apply Nat.ltb_lt in W. split; [|lia]. apply orb_true_iff. left. apply Nat.ltb_lt. lia.
    - apply andb_true_iff in W. destruct W as (W & W'). apply Nat.ltb_lt in W. split; [|lia]. apply orb_true_iff. right. apply andb_true_iff. split; [apply Nat.ltb_lt; lia|assumption]. }
  destruct W2 as (W2 & Hk). cbn [refine]. rewrite Hmax.
  replace (M2 - k)%nat with (S (M2 - S k)) by lia.
  destruct (no_child (map (make m1 M1 n1 k) (combine (child_boxes a) (child_boxes b)))) eqn:E; [reflexivity|].
  rewrite grow_S, W2. f_equal. rewrite map_map. apply map_ext. intros c. unfold make. destruct (state (fst c)); [|reflexivity|]; rewrite IH; reflexivity.
Qed.
End Tree.
