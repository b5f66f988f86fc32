(** Properties C10-C14: classification of the cells by flood fill. *)
From Coq Require Import Arith List Bool ZArith Lia Permutation Relations.
From Verif Require Import GridModel GridSpec GridProofs GridStoreModel GridGeoModel Geo FloodModel FloodSpec FloodSets FloodFillProofs FloodMergeProofs FloodProofs.
Import ListNotations.

(** ** C10 *)
Theorem C10_slabs_cover_once : forall g threads c, grid_ok g -> 0 < threads -> in_grid g c ->
  exists k p, nth_error (partitions g threads) k = Some p /\ in_box p c /\
              (forall k' p', nth_error (partitions g threads) k' = Some p' -> in_box p' c -> k' = k).
Proof. exact partitions_cover. Qed.
Theorem C10_slabs_are_boxes_in_grid : forall g threads k p, grid_ok g ->
  nth_error (partitions g threads) k = Some p -> part_ok g p.
Proof. exact partitions_ok. Qed.
Lemma partitions_length g t : length (partitions g t) <= t.
Proof. destruct (partitions_eq g t) as (m & Hm & -> & _). rewrite map_length, seq_length. exact Hm. Qed.
Theorem C10_at_most_one_slab_per_thread : forall g threads, length (partitions g threads) <= threads.
Proof. exact partitions_length. Qed.
Print Assumptions C10_slabs_cover_once.
Print Assumptions C10_slabs_are_boxes_in_grid.
Print Assumptions C10_at_most_one_slab_per_thread.
Example C10_example : grid_ok (Grid 7 2 3) /\ in_grid (Grid 7 2 3) (C3 6 1 2) /\ length (partitions (Grid 7 2 3) 4) = 4
  /\ length (partitions (Grid 2 7 3) 5) = 4 /\ nth_error (partitions (Grid 7 2 3) 4) 3 = Some (Part (C3 6 0 0) (C3 6 1 2)).
Proof. vm_compute. repeat constructor. Qed.

(** ** C11: no hypothesis on the geometric tests *)
Lemma classify_trimmed g T P V threads res : grid_ok g -> 0 < threads -> classify_rel g T P V threads res ->
  exists st, res = Some st /\ forall i, i < num_elements g -> (st i = Trimmed <-> T i = true).
Proof.
  intros Hg Ht H. destruct (classify_main g T P V Hg threads Ht res H) as (st & E & A & _). exists st. auto.
Qed.
Theorem C11_classification_terminates_trimmed_iff_cut : forall g T P V threads res,
  grid_ok g -> 0 < threads -> classify_rel g T P V threads res ->
  exists st, res = Some st /\ forall i, i < num_elements g -> (st i = Trimmed <-> T i = true).
Proof. exact classify_trimmed. Qed.
Print Assumptions C11_classification_terminates_trimmed_iff_cut.

Lemma classify_rel_total g T P V threads : grid_ok g -> 0 < threads -> classify_rel g T P V threads (classify_seq g T P V threads).
Proof.
  intros Hg Ht. unfold classify_rel, classify_seq. destruct (fill_all g T P V threads) as [[st gs]|]; [|reflexivity].
  exists gs. split; [apply Permutation_refl|reflexivity].
Qed.
Example C11_example :
  let g := Grid 4 3 1 in let T i := existsb (Nat.eqb i) [1; 5; 9] in
  let P i (d : dir) := T i in let V i j (d : dir) := (i <? j)%nat in
  classify_rel g T P V 3 (classify_seq g T P V 3) /\
  option_map (fun st => map st (seq 0 12)) (classify_seq g T P V 3) =
    Some [Inside; Trimmed; Outside; Outside; Inside; Trimmed; Outside; Outside; Inside; Trimmed; Outside; Outside].
Proof. cbv zeta. split; [apply classify_rel_total; [repeat constructor|lia] | vm_compute; reflexivity]. Qed.

(** ** C12 *)
Lemma classify_connected g T P V threads st : grid_ok g -> 0 < threads -> symmetric_faces g T P ->
  classify_rel g T P V threads (Some st) -> forall i j, i < num_elements g -> T i = false -> connected g T P i j -> st i = st j.
Proof.
  intros Hg Ht Hs H i j Hi Ti Hc.
  destruct (classify_main g T P V Hg threads Ht _ H) as (st' & E & _ & B). injection E as <-.
  assert (Hj : j < num_elements g /\ T j = false).
  { apply clos_rt_rtn1 in Hc. destruct Hc as [|y z (d & (_ & Hz & _) & _ & Tz & _) _]; auto. }
  destruct (B Hs i Hi Ti) as (c & Rc & ->). destruct (B Hs j (proj1 Hj) (proj2 Hj)) as (c' & Rc' & ->).
  rewrite (zsum_perm _ _ _ (region_unique g T P i j c c' Hc Hs Rc Rc')). reflexivity.
Qed.
Theorem C12_connected_cells_same_state : forall g T P V threads st, grid_ok g -> 0 < threads -> symmetric_faces g T P ->
  classify_rel g T P V threads (Some st) ->
  forall i j, i < num_elements g -> T i = false -> connected g T P i j -> st i = st j.
Proof. exact classify_connected. Qed.

Lemma classify_majority g T P V threads st : grid_ok g -> 0 < threads -> symmetric_faces g T P ->
  classify_rel g T P V threads (Some st) ->
  forall i comp, i < num_elements g -> T i = false -> is_region g T P i comp ->
  st i = if (0 <? zsum (fun j => face_votes g P V j + wrap_votes g P V (walk_fwd (part_axis g)) (walk_bwd (part_axis g)) j) comp)%Z
         then Inside else Outside.
Proof.
  intros Hg Ht Hs H i comp Hi Ti Hc.
  destruct (classify_main g T P V Hg threads Ht _ H) as (st' & E & _ & B). injection E as <-.
  destruct (B Hs i Hi Ti) as (c & Rc & ->).
  rewrite (zsum_perm _ _ _ (region_unique g T P i i c comp (rt_refl _ _ _) Hs Rc Hc)). reflexivity.
Qed.
(** the state is the majority of the votes around exactly the connected region; the votes include those of the
    wrapped-around cells, see C14 *)
Theorem C12_state_is_majority_of_region : forall g T P V threads st, grid_ok g -> 0 < threads -> symmetric_faces g T P ->
  classify_rel g T P V threads (Some st) ->
  forall i comp, i < num_elements g -> T i = false -> is_region g T P i comp ->
  st i = if (0 <? zsum (fun j => face_votes g P V j + wrap_votes g P V (walk_fwd (part_axis g)) (walk_bwd (part_axis g)) j) comp)%Z
         then Inside else Outside.
Proof. exact classify_majority. Qed.

Lemma region_exists g T P i : grid_ok g -> symmetric_faces g T P -> i < num_elements g -> T i = false -> exists comp, is_region g T P i comp.
Proof.
  intros Hg Hs Hi Ti.
  pose (V := fun (i j : nat) (d : dir) => true).
  destruct (classify_main g T P V Hg 1 (le_n 1) _ (classify_rel_total g T P V 1 Hg (le_n 1))) as (st & _ & _ & B).
  destruct (B Hs i Hi Ti) as (c & Hc & _). exists c; assumption.
Qed.
(** the regions quantified over in the previous theorem always exist *)
Theorem C12_region_exists : forall g T P i, grid_ok g -> symmetric_faces g T P ->
  i < num_elements g -> T i = false -> exists comp, is_region g T P i comp.
Proof. exact region_exists. Qed.
Print Assumptions C12_connected_cells_same_state.
Print Assumptions C12_state_is_majority_of_region.
Print Assumptions C12_region_exists.

(** hypotheses met: a 4x3x1 grid cut by a plane through the second column *)
Example C12_example :
  let g := Grid 4 3 1 in let T i := existsb (Nat.eqb i) [1; 5; 9] in
  let P i (d : dir) := T i in
  symmetric_faces g T P /\ connected g T P 2 11 /\ T 2 = false.
Proof.
  cbv zeta. split; [|split; [|reflexivity]].
  - intros d i j _ -> ->. reflexivity.
  - assert (L : forall i j d, nb (Grid 4 3 1) d i j ->
      existsb (Nat.eqb i) [1;5;9] = false -> existsb (Nat.eqb j) [1;5;9] = false ->
      connected (Grid 4 3 1) (fun i => existsb (Nat.eqb i) [1;5;9]) (fun i _ => existsb (Nat.eqb i) [1;5;9]) i j).
    { intros i j d Hn Ti Tj. apply rt_step. exists d. auto. }
    apply rt_trans with 6; [apply (L 2 6 YF); [vm_compute; repeat constructor | reflexivity | reflexivity]|].
    apply rt_trans with 10; [apply (L 6 10 YF); [vm_compute; repeat constructor | reflexivity | reflexivity]|].
    apply (L 10 11 XF); [vm_compute; repeat constructor | reflexivity | reflexivity].
Qed.

(** ** C13 *)
Lemma classify_threads g T P V t t' res res' : grid_ok g -> symmetric_faces g T P -> 0 < t -> 0 < t' ->
  classify_rel g T P V t res -> classify_rel g T P V t' res' ->
  exists st st', res = Some st /\ res' = Some st' /\ forall i, i < num_elements g -> st i = st' i.
Proof.
  intros Hg Hs Ht Ht' H H'.
  destruct (classify_main g T P V Hg t Ht _ H) as (st & -> & A & B).
  destruct (classify_main g T P V Hg t' Ht' _ H') as (st' & -> & A' & B').
  exists st, st'. split; [reflexivity|]. split; [reflexivity|]. intros i Hi.
  destruct (T i) eqn:Ti.
  - rewrite (proj2 (A i Hi) Ti), (proj2 (A' i Hi) Ti). reflexivity.
  - destruct (B Hs i Hi Ti) as (c & Rc & ->). destruct (B' Hs i Hi Ti) as (c' & Rc' & ->).
    rewrite (zsum_perm _ _ _ (region_unique g T P i i c c' (rt_refl _ _ _) Hs Rc Rc')). reflexivity.
Qed.
Theorem C13_independent_of_threads_and_order : forall g T P V t t' res res',
  grid_ok g -> symmetric_faces g T P -> 0 < t -> 0 < t' ->
  classify_rel g T P V t res -> classify_rel g T P V t' res' ->
  exists st st', res = Some st /\ res' = Some st' /\ forall i, i < num_elements g -> st i = st' i.
Proof. exact classify_threads. Qed.

Lemma asym : exists g T P V st st', grid_ok g /\ classify_rel g T P V 1 (Some st) /\ classify_rel g T P V 2 (Some st') /\
  exists i, i < num_elements g /\ st i = Outside /\ st' i = Inside.
Proof.
  pose (g := Grid 2 1 1). pose (T := fun _ : nat => false).
  pose (P := fun (n : nat) (d : dir) => match n, d with 0, XB => true | _, _ => false end).
  pose (V := fun (i n : nat) (d : dir) => (i =? 1)%nat).
  assert (Hg : grid_ok g) by (repeat constructor).
  pose proof (classify_rel_total g T P V 1 Hg ltac:(lia)) as H1.
  pose proof (classify_rel_total g T P V 2 Hg ltac:(lia)) as H2.
  assert (E1 : option_map (fun st => st 1) (classify_seq g T P V 1) = Some Outside) by (vm_compute; reflexivity).
  assert (E2 : option_map (fun st => st 1) (classify_seq g T P V 2) = Some Inside) by (vm_compute; reflexivity).
  destruct (classify_seq g T P V 1) as [st|]; [|discriminate].
  destruct (classify_seq g T P V 2) as [st'|]; [|discriminate].
  injection E1 as E1. injection E2 as E2.
  exists g, T, P, V, st, st'. split; [assumption|]. split; [assumption|]. split; [assumption|].
  exists 1. split; [unfold g; vm_compute; lia|]. split; assumption.
Qed.
(** without the symmetry of the face test the result may depend on the number of threads *)
Theorem C13_asymmetric_test_refuted : exists g T P V st st', grid_ok g /\
  classify_rel g T P V 1 (Some st) /\ classify_rel g T P V 2 (Some st') /\
  exists i, i < num_elements g /\ st i = Outside /\ st' i = Inside.
Proof. exact asym. Qed.
Print Assumptions C13_independent_of_threads_and_order.
Print Assumptions C13_asymmetric_test_refuted.

(** ** C14 *)
(** the claim "only face neighbours vote": the state of every uncut cell is the majority of the votes of the face neighbours of its region *)
Definition only_face_votes g T P V (st : nat -> istate) : Prop :=
  forall i comp, i < num_elements g -> T i = false -> is_region g T P i comp ->
  st i = if (0 <? zsum (face_votes g P V) comp)%Z then Inside else Outside.

Lemma wrap_refute : exists g T P V st, grid_ok g /\ symmetric_faces g T P /\
  (forall i d, T i = true -> P i d = true) /\
  classify_rel g T P V 1 (Some st) /\ ~ only_face_votes g T P V st.
Proof.
  pose (g := Grid 3 2 1). pose (T := fun i : nat => negb (i =? 2)%nat).
  pose (P := fun (n : nat) (d : dir) => T n).
  pose (V := fun (i n : nat) (d : dir) => negb (n =? 5)%nat).
  assert (Hg : grid_ok g) by (repeat constructor).
  pose proof (classify_rel_total g T P V 1 Hg ltac:(lia)) as H1.
  assert (E1 : option_map (fun st => st 2) (classify_seq g T P V 1) = Some Inside) by (vm_compute; reflexivity).
  destruct (classify_seq g T P V 1) as [st|]; [|discriminate]. injection E1 as E1.
  exists g, T, P, V, st. split; [assumption|]. split; [|split; [|split; [assumption|]]].
  - intros d i j _ Hi Hj. unfold P. congruence.
  - intros i d Hi. exact Hi.
  - intros H. specialize (H 2 [2]). rewrite E1 in H.
    assert (Hr : is_region g T P 2 [2]).
    { split; [repeat constructor; simpl; tauto|]. intros j. split.
      - intros [<-|[]]. apply rt_refl.
      - intros Hc. apply clos_rt_rtn1 in Hc. destruct Hc as [|y z (d & _ & _ & Tz & _) _]; [left; reflexivity|].
        left. unfold T in Tz. destruct (Nat.eqb_spec z 2); [congruence|discriminate]. }
    specialize (H ltac:(vm_compute; lia) eq_refl Hr). vm_compute in H. discriminate.
Qed.
(** refuted, even for a face test that is consistent with the cell test: on a 3x2x1 grid the cell (2,0,0) gets a vote
    from the cell (0,1,0), and it decides *)
Theorem C14_only_face_neighbours_vote_refuted : exists g T P V st, grid_ok g /\ symmetric_faces g T P /\
  (forall i d, T i = true -> P i d = true) /\
  classify_rel g T P V 1 (Some st) /\ ~ only_face_votes g T P V st.
Proof. exact wrap_refute. Qed.

(** the cut surface stays away from the two outermost layers of cells in the partition direction *)
Definition clear_of_ends (g : grid) (P : nat -> dir -> bool) : Prop :=
  forall i d, i < num_elements g -> (c_at (part_axis g) (mat_of g i) = 0 \/ c_at (part_axis g) (mat_of g i) + 1 = n_at (part_axis g) g) -> P i d = false.

Lemma wrapped_at_end g i d : grid_ok g -> i < num_elements g -> d = walk_fwd (part_axis g) \/ d = walk_bwd (part_axis g) ->
  neighbour g i d = None ->
  let n := fst (next_index_g g i d) in
  n < num_elements g /\ (c_at (part_axis g) (mat_of g n) = 0 \/ c_at (part_axis g) (mat_of g n) + 1 = n_at (part_axis g) g).
Proof.
  intros Hg Hi Hd Hn. cbv zeta. pose proof (mat_of_in_grid g i Hg Hi) as Hc.
  unfold next_index_g. rewrite <- (vec_of_mat_of g i Hg), next_index_stepc by assumption. cbn [fst].
  assert (Hb : in_box (global_part g) (mat_of g i)) by (apply in_box_global; assumption).
  pose proof (stepc_in_box g d _ _ (global_part_ok g Hg) Hb) as Hb'.
  apply in_box_global in Hb'; [|assumption].
  split; [apply vec_of_bound; assumption|]. rewrite mat_of_vec_of by assumption.
  clear Hb Hb'. unfold neighbour in Hn. set (c := mat_of g i) in *. clearbody c.
  unfold stepc, global_part, in_grid, grid_ok in *. cbv beta zeta in Hn.
  destruct (part_axis g); cbn [walk_fwd walk_bwd c_at n_at] in *; destruct Hd as [->| ->];
    match type of Hn with context [Nat.ltb ?a ?b] => destruct (Nat.ltb_spec a b) as [|Hlt]; [discriminate|] end;
    cbn [pfirst psecond cx cy cz] in *;
    repeat match goal with |- context [Nat.ltb ?a ?b] => destruct (Nat.ltb_spec a b) end; cbn [fst cx cy cz]; lia.
Qed.

Lemma guarded g T P V threads st : grid_ok g -> 0 < threads -> symmetric_faces g T P -> clear_of_ends g P ->
  classify_rel g T P V threads (Some st) -> only_face_votes g T P V st.
Proof.
  intros Hg Ht Hs Hcl H i comp Hi Ti Hr.
  rewrite (classify_majority g T P V threads st Hg Ht Hs H i comp Hi Ti Hr).
  assert (E : zsum (fun j => (face_votes g P V j + wrap_votes g P V (walk_fwd (part_axis g)) (walk_bwd (part_axis g)) j)%Z) comp
     = zsum (face_votes g P V) comp); [|rewrite E; reflexivity].
  apply zsum_ext. intros j Hj.
  assert (Hjn : j < num_elements g).
  { apply Hr in Hj. apply clos_rt_rtn1 in Hj. destruct Hj as [|y z (d & (_ & Hz & _) & _) _]; auto. }
  assert (W : forall d, d = walk_fwd (part_axis g) \/ d = walk_bwd (part_axis g) -> wrap_vote g P V j d = 0%Z).
  { intros d Hd. unfold wrap_vote. destruct (neighbour g j d) eqn:En; [reflexivity|].
    destruct (wrapped_at_end g j d Hg Hjn Hd En) as (A & B). unfold vote. rewrite Hcl by assumption. reflexivity. }
  unfold wrap_votes. rewrite !W by auto. lia.
Qed.
Theorem C14_guarded_only_face_neighbours_vote : forall g T P V threads st, grid_ok g -> 0 < threads ->
  symmetric_faces g T P -> clear_of_ends g P ->
  classify_rel g T P V threads (Some st) -> only_face_votes g T P V st.
Proof. exact guarded. Qed.
Print Assumptions C14_only_face_neighbours_vote_refuted.
Print Assumptions C14_guarded_only_face_neighbours_vote.

Example C14_example :
  let g := Grid 4 3 1 in let T i := existsb (Nat.eqb i) [5] in
  let P i (d : dir) := T i in clear_of_ends g P /\ symmetric_faces g T P.
Proof.
  cbv zeta. split.
  - intros i d Hi Ho. destruct (Nat.eq_dec i 5) as [->|Hne].
    + vm_compute in Ho. destruct Ho as [Ho|Ho]; discriminate.
    + cbn. destruct (Nat.eqb_spec i 5); [contradiction|reflexivity].
  - intros d i j _ -> ->. reflexivity.
Qed.
