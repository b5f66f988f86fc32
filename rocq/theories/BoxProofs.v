(** The GGQ boxes: termination, partition, cuboid shape. *)
From Coq Require Import Arith List Bool QArith Qabs Lia Permutation Lqa.
From Verif Require Import GridModel GridSpec GridProofs FloodModel FloodSets BoxModel BoxSpec.
Import ListNotations.
Local Open Scope nat_scope.

(** ** coefficients *)
Lemma linear_function_ok x n : x < n -> 1 < n -> exists v, linear_function x n = Some v /\ (0 < v)%Q.
Proof.
  intros Hx Hn. unfold linear_function.
  set (N := inject_Z (Z.of_nat n)).
  assert (HN : (2 <= N)%Q) by (unfold N; change 2%Q with (inject_Z 2); rewrite <- Zle_Qle; lia).
  assert (Ec : (inject_Z (Z.of_nat (n - 1)) == N - 1)%Q).
  { unfold N. rewrite Nat2Z.inj_sub by lia. unfold Z.sub. rewrite inject_Z_plus. reflexivity. }
  set (c := (inject_Z (Z.of_nat (n - 1)) / 2)%Q).
  assert (Hc : (c == (1 # 2) * (N - 1))%Q) by (unfold c; rewrite Ec; field).
  assert (Hc0 : (0 < c)%Q) by (rewrite Hc; lra).
  set (X := inject_Z (Z.of_nat x)).
  assert (HX : (0 <= X <= N - 1)%Q).
  { split; [unfold X; change 0%Q with (inject_Z 0); rewrite <- Zle_Qle; lia|]. rewrite <- Ec. unfold X. rewrite <- Zle_Qle. lia. }
  set (dl := Qabs (c - X)).
  assert (Hd : (dl <= c)%Q).
  { unfold dl. apply Qabs_case; intros; rewrite Hc in *; lra. }
  assert (Hr : ((9 # 10) / c * dl <= 9 # 10)%Q).
  { setoid_replace ((9 # 10) / c * dl)%Q with ((9 # 10) * (dl / c))%Q by (field; lra).
    assert (dl / c <= 1)%Q by (apply Qle_shift_div_r; [assumption|lra]). lra. }
  set (q := ((9 # 10) / c * dl)%Q) in *.
  assert (Hv : ((1 # 10) * 2 <= (1 - q) * N)%Q).
  { apply Qle_trans with ((1 # 10) * N)%Q; [lra|]. apply Qmult_le_compat_r; lra. }
  assert (Hz : (zerotol <= (1 - q) * N)%Q) by (apply Qle_trans with ((1 # 10) * 2)%Q; [discriminate|assumption]).
  apply Qle_bool_iff in Hz. rewrite Hz. simpl. eexists; split; [reflexivity|]. lra.
Qed.

Lemma assign_loop_ok : forall nbs i n coef, i + length nbs <= n -> 1 < n ->
  (forall e, (0 < coef e)%Q) -> exists c, assign_loop i n nbs coef = Some c /\ (forall e, (0 < c e)%Q).
Proof.
  induction nbs as [|e nbs IH]; intros i n coef Hi Hn Hp; simpl; [exists coef; auto|].
  simpl in Hi. destruct (linear_function_ok i n) as (v & -> & Hv); [lia|lia|].
  apply IH; [lia|lia|]. intros e'. unfold upd. destruct (e' =? e); [|auto].
  apply Qmult_lt_0_compat; auto.
Qed.
Lemma assign_coefficients_ok nbs coef : (forall e, (0 < coef e)%Q) ->
  exists c, assign_coefficients nbs coef = Some c /\ (forall e, (0 < c e)%Q).
Proof.
  intros Hp. unfold assign_coefficients. destruct (Nat.ltb_spec 1 (length nbs)); [|exists coef; auto].
  apply assign_loop_ok; auto.
Qed.

(** ** cells of a cuboid *)
Definition cells_in (lo s : c3) : list c3 :=
  flat_map (fun x => flat_map (fun y => map (fun z => C3 x y z) (seq (cz lo) (cz s))) (seq (cy lo) (cy s))) (seq (cx lo) (cx s)).
Lemma in_cells_in lo s c : In c (cells_in lo s) <-> within lo s c.
Proof.
  unfold cells_in, within. rewrite in_flat_map. split.
  - intros (x & Hx & H). rewrite in_flat_map in H. destruct H as (y & Hy & H). rewrite in_map_iff in H.
    destruct H as (z & <- & Hz). rewrite in_seq in *. simpl. lia.
  - intros (A & B & C). exists (cx c). rewrite in_seq. split; [lia|]. rewrite in_flat_map. exists (cy c). rewrite in_seq.
    split; [lia|]. rewrite in_map_iff. exists (cz c). rewrite in_seq. split; [destruct c; reflexivity|lia].
Qed.
Lemma flat_map_const_length {A B} (f : A -> list B) l k : (forall x, length (f x) = k) -> length (flat_map f l) = length l * k.
Proof. intros H. induction l as [|x l IH]; simpl; [reflexivity|]. rewrite app_length, H, IH. lia. Qed.
Lemma cells_in_length lo s : length (cells_in lo s) = cx s * (cy s * cz s).
Proof.
  unfold cells_in. rewrite (flat_map_const_length _ _ (cy s * cz s)).
  - rewrite seq_length. reflexivity.
  - intros x. rewrite (flat_map_const_length _ _ (cz s)); [rewrite seq_length; reflexivity|].
    intros y. rewrite map_length, seq_length. reflexivity.
Qed.

(** the layer of cells next to the cuboid in direction d *)
Definition layer_lo (lo s : c3) (d : dir) : c3 :=
  match d with
  | XF => C3 (cx lo + cx s) (cy lo) (cz lo) | XB => C3 (cx lo - 1) (cy lo) (cz lo)
  | YF => C3 (cx lo) (cy lo + cy s) (cz lo) | YB => C3 (cx lo) (cy lo - 1) (cz lo)
  | ZF => C3 (cx lo) (cy lo) (cz lo + cz s) | ZB => C3 (cx lo) (cy lo) (cz lo - 1)
  end.
Definition layer_size (s : c3) (d : dir) : c3 :=
  match d with XF | XB => C3 1 (cy s) (cz s) | YF | YB => C3 (cx s) 1 (cz s) | ZF | ZB => C3 (cx s) (cy s) 1 end.
Lemma layer_length lo s d : length (cells_in (layer_lo lo s d) (layer_size s d)) = required s d.
Proof. rewrite cells_in_length. unfold required. destruct d; simpl; lia. Qed.
Definition new_lo (lo : c3) (d : dir) : c3 :=
  match d with
  | XB => C3 (cx lo - 1) (cy lo) (cz lo) | YB => C3 (cx lo) (cy lo - 1) (cz lo) | ZB => C3 (cx lo) (cy lo) (cz lo - 1)
  | _ => lo
  end.

Lemma face_nb_layer lo s d c c' : within lo s c -> face_nb d c c' -> ~ within lo s c' -> within (layer_lo lo s d) (layer_size s d) c'.
Proof. unfold within, face_nb, layer_lo, layer_size. destruct d; simpl; lia. Qed.

Section P.
Variable g : grid.
Variable U : nat -> bool.
Hypothesis Hg : grid_ok g.
Let N := num_elements g.

Definition ucount (l : list nat) : nat := length (List.filter U l).

Lemma coef_loop_ok d : forall fuel w rest cur cnt nbs coef,
  walk g d (global_part g) w cur = Some (cur :: rest) ->
  length (untrimmed g U) <= cnt + ucount rest -> length rest <= fuel -> (forall e, (0 < coef e)%Q) ->
  exists c, coef_loop g U fuel d cur cnt nbs coef = Some c /\ (forall e, (0 < c e)%Q).
Proof.
  induction fuel as [|fuel IH]; intros w rest cur cnt nbs coef Hw Hc Hl Hp.
  - destruct rest; [|simpl in Hl; lia]. unfold ucount in Hc; simpl in Hc. simpl.
    destruct (Nat.ltb_spec cnt (length (untrimmed g U))); [lia|]. apply assign_coefficients_ok; assumption.
  - cbn [coef_loop]. destruct (Nat.ltb_spec cnt (length (untrimmed g U))) as [Hlt|]; [|apply assign_coefficients_ok; assumption].
    destruct rest as [|n rest]; [unfold ucount in Hc; simpl in Hc; lia|].
    destruct w as [|w]; [discriminate|]. simpl in Hw. unfold next_index_g.
    destruct (next_index g cur d (global_part g)) as [n' inf] eqn:En. simpl in Hw.
    assert (En' : n' = n /\ walk g d (global_part g) w n = Some (n :: rest)).
    { assert (Ew : forall l, walk g d (global_part g) w n' = Some l -> exists t, l = n' :: t).
      { intros l. destruct w; simpl; [discriminate|].
        destruct (snd (next_index g n' d (global_part g))).
        1,2: destruct (walk g d (global_part g) w (fst (next_index g n' d (global_part g)))); [|discriminate]; intros E; injection E as <-; eauto.
        intros E; injection E as <-; eauto. }
      destruct inf; destruct (walk g d (global_part g) w n') as [l|] eqn:E; try discriminate Hw;
        destruct (Ew l eq_refl) as (t & ->); injection Hw as E1 E2; subst; auto. }
    destruct En' as (-> & Hw').
    assert (Hc' : length (untrimmed g U) <= (if U n then cnt + 1 else cnt) + ucount rest).
    { unfold ucount in *. simpl in Hc. destruct (U n); simpl in Hc; lia. }
    simpl in Hl.
    destruct (negb (U n) || match inf with Middle => false | _ => true end).
    + destruct (assign_coefficients_ok (if U n then nbs ++ [n] else nbs) coef Hp) as (c & -> & Hp').
      eapply IH; eauto. lia.
    + eapply IH; eauto. lia.
Qed.

Lemma walk_forward_from_0 d : d = XF \/ d = YF \/ d = ZF ->
  exists rest, walk g d (global_part g) N 0 = Some (0 :: rest) /\ Permutation (0 :: rest) (seq 0 N).
Proof.
  intros Hd. destruct (traversal g d (global_part g) (global_part_ok g Hg)) as (l & Hw & Hn & H1 & H2).
  assert (Eb : box_size (global_part g) = N).
  { unfold box_size, N, num_elements, global_part; simpl. destruct Hg as (A & B & C). f_equal; [f_equal|]; lia. }
  assert (E0 : vec_of g (first_cell d (global_part g)) = 0) by (destruct Hd as [->|[->| ->]]; reflexivity).
  rewrite Eb, E0 in Hw.
  assert (Hpos : 0 < N) by (unfold N, num_elements; destruct Hg as (A & B & C); nia).
  assert (Pm : Permutation l (seq 0 N)).
  { apply NoDup_Permutation; [assumption|apply seq_NoDup|]. intros x. rewrite in_seq. split.
    - intros Hx. destruct (H2 x Hx) as (c & Hc & ->). apply in_box_global in Hc; [|assumption].
      pose proof (vec_of_bound g c Hc). fold N in H. lia.
    - intros Hx. rewrite <- (vec_of_mat_of g x Hg). apply H1; [apply mat_of_in_grid; [assumption|fold N; lia]|].
      apply in_box_global; [assumption|]. apply mat_of_in_grid; [assumption|fold N; lia]. }
  destruct l as [|x rest].
  { apply Permutation_length in Pm. rewrite seq_length in Pm. simpl in Pm. lia. }
  assert (x = 0).
  { destruct N as [|n]; [lia|]. simpl in Hw.
    destruct (snd (next_index g 0 d (global_part g))).
    1,2: destruct (walk g d (global_part g) n (fst (next_index g 0 d (global_part g)))); [|discriminate]; injection Hw as <- _; reflexivity.
    injection Hw as <- _. reflexivity. }
  subst x. exists rest. auto.
Qed.

Lemma filter_perm_length l l' : Permutation l l' -> length (List.filter U l) = length (List.filter U l').
Proof.
  induction 1; simpl; try lia; auto.
  - destruct (U x); simpl; lia.
  - destruct (U x), (U y); simpl; lia.
Qed.

Lemma coef_dir_ok d coef : d = XF \/ d = YF \/ d = ZF -> (forall e, (0 < coef e)%Q) ->
  exists c, coef_dir g U d coef = Some c /\ (forall e, (0 < c e)%Q).
Proof.
  intros Hd Hp. destruct (walk_forward_from_0 d Hd) as (rest & Hw & Pm). unfold coef_dir.
  eapply coef_loop_ok; eauto.
  - unfold untrimmed, ucount. fold N. rewrite <- (filter_perm_length _ _ Pm). simpl. destruct (U 0); simpl; lia.
  - apply Permutation_length in Pm. rewrite seq_length in Pm. simpl in Pm. fold N. lia.
Qed.

Lemma compute_coefficients_ok : exists c, compute_coefficients g U = Some c /\ (forall e, (0 < c e)%Q).
Proof.
  unfold compute_coefficients.
  destruct (coef_dir_ok XF (fun _ => 1%Q)) as (c1 & -> & H1); [auto|reflexivity|].
  destruct (coef_dir_ok YF c1) as (c2 & -> & H2); [auto|assumption|].
  apply coef_dir_ok; auto.
Qed.

(** ** queue *)
Lemma insert_prio_perm coef x l : Permutation (insert_prio coef x l) (x :: l).
Proof.
  induction l as [|y l IH]; simpl; [reflexivity|]. destruct (lower_priority coef x y); [|reflexivity].
  rewrite IH. apply perm_swap.
Qed.
Lemma queue_order_perm coef : Permutation (queue_order g U coef) (untrimmed g U).
Proof.
  unfold queue_order. induction (untrimmed g U) as [|x l IH]; simpl; [reflexivity|].
  rewrite insert_prio_perm. constructor. assumption.
Qed.
Lemma in_untrimmed i : In i (untrimmed g U) <-> i < N /\ U i = true.
Proof. unfold untrimmed. rewrite filter_In, in_seq. fold N. intuition lia. Qed.

(** ** expansion *)
Lemma attempts_some : forall k cand s c d, attempts k cand s c = Some d -> length (cand d) = required s d.
Proof.
  induction k as [|k IH]; intros cand s c d; simpl; [discriminate|].
  destruct (Nat.eqb_spec (length (cand (max_dir c))) (required s (max_dir c))); [|apply IH].
  intros E; injection E as <-. assumption.
Qed.

Record Inv (b : bstate) : Prop := {
  I_nodup : NoDup (bs_box b);
  I_cell : forall i, In i (bs_box b) -> i < N /\ U i = true /\ bs_vis b i = true;
  I_size : 0 < cx (bs_size b) /\ 0 < cy (bs_size b) /\ 0 < cz (bs_size b)
}.

Lemma next_global i d j f : i < N -> next_index_g g i d = (j, f) -> j < N.
Proof.
  intros Hi E. unfold next_index_g in E. rewrite <- (vec_of_mat_of g i Hg) in E.
  assert (Hc : in_grid g (mat_of g i)) by (apply mat_of_in_grid; assumption).
  destruct (step_result_in_box g d (global_part g) (mat_of g i) j f (global_part_ok g Hg)) as (c' & Hc' & ->); auto.
  - apply in_box_global; assumption.
  - apply in_box_global in Hc'; [|assumption]. apply vec_of_bound; assumption.
Qed.
Lemma next_global_rev i d j f : i < N -> next_index_g g i d = (j, f) -> f <> GlobalEnd -> next_index_g g j (reverse_dir d) = (i, f).
Proof.
  intros Hi E Hf. unfold next_index_g in *. rewrite <- (vec_of_mat_of g i Hg) in E |- *.
  assert (Hc : in_grid g (mat_of g i)) by (apply mat_of_in_grid; assumption).
  apply step_reverse; auto; [apply global_part_ok; assumption | apply in_box_global; assumption].
Qed.
Lemma next_global_end i d j : i < N -> next_index_g g i d = (j, GlobalEnd) -> j = i.
Proof.
  intros Hi E. unfold next_index_g in *. rewrite <- (vec_of_mat_of g i Hg) in E |- *.
  assert (Hc : in_grid g (mat_of g i)) by (apply mat_of_in_grid; assumption).
  rewrite next_index_stepc in E by assumption. injection E as <- E2.
  f_equal. eapply stepc_global_end; eauto; [apply global_part_ok; assumption | apply in_box_global; assumption].
Qed.

Lemma in_candidates vis box d j : In j (candidates g U vis box d) <->
  (exists i, In i box /\ fst (next_index_g g i d) = j) /\ U j = true /\ vis j = false.
Proof.
  unfold candidates. rewrite filter_In, in_map_iff, andb_true_iff, negb_true_iff.
  split; intros ((i & A & B) & C); (split; [exists i; auto|assumption]).
Qed.

Lemma candidates_nodup b d : Inv b -> NoDup (candidates g U (bs_vis b) (bs_box b) d).
Proof.
  intros [Hn Hc _]. unfold candidates. revert Hc. induction Hn as [|i box Hi Hn IH]; intros Hc; simpl; [constructor|].
  assert (IH' := IH (fun k Hk => Hc k (or_intror Hk))).
  destruct (U (fst (next_index_g g i d)) && negb (bs_vis b (fst (next_index_g g i d)))) eqn:E; [|assumption].
  constructor; [|assumption]. intros Hin. apply filter_In in Hin. destruct Hin as (Hin & _).
  apply in_map_iff in Hin. destruct Hin as (k & Ek & Hk).
  apply andb_true_iff in E. destruct E as (_ & E). apply negb_true_iff in E.
  destruct (Hc i (or_introl eq_refl)) as (Ni & _ & Vi). destruct (Hc k (or_intror Hk)) as (Nk & _ & Vk).
  destruct (next_index_g g i d) as [j f] eqn:E1. destruct (next_index_g g k d) as [j' f'] eqn:E2. simpl in *. subst j'.
  destruct f.
  3: { apply next_global_end in E1; [|assumption]. subst; congruence. }
  1,2: destruct f'; try (apply next_global_end in E2; [|assumption]; subst; congruence);
    apply next_global_rev in E1; try assumption; try discriminate;
    apply next_global_rev in E2; try assumption; try discriminate;
    rewrite E1 in E2; injection E2 as E2; subst; contradiction.
Qed.

Lemma fold_upd_true l : forall (v : nat -> bool) j, fold_left (fun v j => upd v j true) l v j = true <-> v j = true \/ In j l.
Proof.
  induction l as [|x l IH]; intros v j; simpl; [tauto|]. rewrite IH, upd_true. intuition.
Qed.

Lemma try_expand_ok coef b b' : Inv b -> try_expand g U coef b = Some b' ->
  exists d new, new = candidates g U (bs_vis b) (bs_box b) d /\ length new = required (bs_size b) d /\ new <> [] /\
    bs_box b' = bs_box b ++ new /\ bs_size b' = grow (bs_size b) d /\
    (forall j, In j new -> bs_vis b j = false) /\
    (forall j, bs_vis b' j = true <-> bs_vis b j = true \/ In j new) /\ Inv b'.
Proof.
  intros HI E. unfold try_expand in E.
  destruct (attempts 6 _ _ _) as [d|] eqn:Ea; [|discriminate]. injection E as <-.
  apply attempts_some in Ea. exists d. eexists. split; [reflexivity|].
  set (new := candidates g U (bs_vis b) (bs_box b) d) in *.
  assert (Hin : forall j, In j new -> bs_vis b j = false) by (intros j Hj; apply in_candidates in Hj; tauto).
  split; [assumption|]. split.
  { intros E. rewrite E in Ea. simpl in Ea. destruct HI as [_ _ (A & B & C)]. unfold required in Ea. destruct d; nia. }
  cbn [bs_box bs_size bs_vis]. split; [reflexivity|]. split; [reflexivity|]. split; [assumption|]. split; [apply fold_upd_true|].
  destruct HI as [A B C]. constructor; cbn [bs_box bs_size bs_vis].
  - apply NoDup_app_iff. split; [assumption|]. split; [apply candidates_nodup; constructor; assumption|].
    intros x Hx Hx'. apply Hin in Hx'. apply B in Hx. destruct Hx as (_ & _ & Hx). congruence.
  - intros i Hi. rewrite fold_upd_true. apply in_app_iff in Hi. destruct Hi as [Hi|Hi].
    + destruct (B i Hi) as (? & ? & ?). auto.
    + pose proof Hi as Hi'. apply in_candidates in Hi'. destruct Hi' as ((k & Hk & Ek) & Hu & _).
      split; [|auto]. destruct (next_index_g g k d) as [j f] eqn:E. simpl in Ek. subst j.
      eapply next_global; [apply B; exact Hk | exact E].
  - destruct C as (C1 & C2 & C3'). unfold grow. destruct d; simpl; lia.
Qed.

Lemma bounded_length l : NoDup l -> (forall x, In x l -> x < N) -> length l <= N.
Proof.
  intros Hn Hb. rewrite <- (seq_length N 0). apply NoDup_incl_length; [assumption|].
  intros x Hx. rewrite in_seq. specialize (Hb x Hx). lia.
Qed.

(** generic invariant carried through the expansion *)
Lemma expand_loop_ok coef (Q : list nat -> c3 -> Prop) :
  (forall b b', Inv b -> Q (bs_box b) (bs_size b) -> try_expand g U coef b = Some b' -> Q (bs_box b') (bs_size b')) ->
  forall fuel b, Inv b -> Q (bs_box b) (bs_size b) -> N <= fuel + length (bs_box b) ->
  exists b', expand_loop g U fuel coef b = Some b' /\ Inv b' /\ Q (bs_box b') (bs_size b') /\
    exists new, bs_box b' = bs_box b ++ new /\ (forall j, In j new -> bs_vis b j = false) /\
      (forall j, bs_vis b' j = true <-> bs_vis b j = true \/ In j new).
Proof.
  intros HQ. induction fuel as [|fuel IH]; intros b HI Hq Hf; simpl.
  - destruct (try_expand g U coef b) as [b'|] eqn:E.
    + exfalso. destruct (try_expand_ok coef b b' HI E) as (d & new & _ & _ & Hne & Eb & _ & _ & _ & HI').
      assert (length (bs_box b') <= N) by (apply bounded_length; [apply HI'|intros x Hx; apply HI'; assumption]).
      rewrite Eb, app_length in H. destruct new; [contradiction|]. simpl in H, Hf. lia.
    + exists b. split; [reflexivity|]. split; [assumption|]. split; [assumption|]. exists []. rewrite app_nil_r. simpl. intuition.
  - destruct (try_expand g U coef b) as [b1|] eqn:E.
    + pose proof (HQ b b1 HI Hq E) as Hq1.
      destruct (try_expand_ok coef b b1 HI E) as (d & new & _ & _ & Hne & Eb & _ & Hv & Hv' & HI1).
      destruct (IH b1 HI1 Hq1) as (b' & F & HI' & Hq' & new' & Eb' & A & B).
      { rewrite Eb, app_length. destruct new; [contradiction|]. simpl. lia. }
      exists b'. split; [exact F|]. split; [assumption|]. split; [assumption|]. exists (new ++ new').
      split; [rewrite Eb', Eb, app_assoc; reflexivity|]. split.
      * intros j Hj. apply in_app_iff in Hj. destruct Hj as [Hj|Hj]; [auto|]. apply A in Hj.
        destruct (bs_vis b j) eqn:Ej; [|reflexivity]. rewrite (proj2 (Hv' j) (or_introl Ej)) in Hj. discriminate.
      * intros j. rewrite B, Hv', in_app_iff. tauto.
    + exists b. split; [reflexivity|]. split; [assumption|]. split; [assumption|]. exists []. rewrite app_nil_r. simpl. intuition.
Qed.

Lemma box_loop_ok coef (Q : list nat -> c3 -> Prop) :
  (forall b b', Inv b -> Q (bs_box b) (bs_size b) -> try_expand g U coef b = Some b' -> Q (bs_box b') (bs_size b')) ->
  (forall e, e < N -> U e = true -> Q [e] (C3 1 1 1)) ->
  forall order vis, (forall e, In e order -> e < N /\ U e = true) ->
  exists boxes, box_loop g U coef order vis = Some boxes /\ NoDup (concat (map fst boxes)) /\
    (forall x, In x (concat (map fst boxes)) -> x < N /\ U x = true /\ vis x = false) /\
    (forall x, In x order -> vis x = true \/ In x (concat (map fst boxes))) /\
    (forall l s, In (l, s) boxes -> Q l s).
Proof.
  intros HQ HQ1. induction order as [|e order IH]; intros vis Ho; simpl.
  - exists []. split; [reflexivity|]. split; [constructor|]. split; [intros x []|]. split; [intros x []|intros l s []].
  - destruct (Ho e (or_introl eq_refl)) as (He & Ue).
    destruct (vis e) eqn:Ev.
    + destruct (IH vis (fun x Hx => Ho x (or_intror Hx))) as (boxes & E & A & B & C & D).
      exists boxes. split; [exact E|]. split; [assumption|]. split; [assumption|]. split; [|assumption].
      intros x [<-|Hx]; auto.
    + destruct (expand_loop_ok coef Q HQ N (BState [e] (C3 1 1 1) (upd vis e true))) as (b & E & HI & Hq & new & Eb & Hv & Hv').
      { constructor; cbn [bs_box bs_size bs_vis].
        - repeat constructor; simpl; tauto.
        - intros i [<-|[]]. split; [assumption|]. split; [assumption|]. apply upd_true; auto.
        - simpl; lia. }
      { apply HQ1; assumption. }
      { lia. }
      cbn [bs_box bs_vis] in Eb, Hv, Hv'. fold N. rewrite E.
      destruct (IH (bs_vis b) (fun x Hx => Ho x (or_intror Hx))) as (boxes & E' & A & B & C & D).
      rewrite E'. eexists. split; [reflexivity|]. cbn [map fst concat].
      assert (Hb : forall x, In x (bs_box b) -> bs_vis b x = true) by (intros x Hx; apply HI; assumption).
      split; [|split; [|split]].
      * apply NoDup_app_iff. split; [apply HI|]. split; [assumption|]. intros x Hx Hx'. apply B in Hx'.
        destruct Hx' as (_ & _ & Hx'). rewrite Hb in Hx' by assumption. discriminate.
      * intros x Hx. apply in_app_iff in Hx. destruct Hx as [Hx|Hx].
        -- split; [apply HI; assumption|]. split; [apply HI; assumption|]. rewrite Eb in Hx. destruct Hx as [<-|Hx]; [assumption|].
           apply Hv in Hx. destruct (vis x) eqn:Ex; [|reflexivity]. rewrite (proj2 (upd_true vis e x) (or_intror Ex)) in Hx. discriminate.
        -- destruct (B x Hx) as (B1 & B2 & B3). split; [assumption|]. split; [assumption|].
           destruct (vis x) eqn:Ex; [|reflexivity].
           assert (bs_vis b x = true) by (apply Hv'; left; apply upd_true; auto). congruence.
      * intros x [<-|Hx].
        -- right. apply in_app_iff. left. rewrite Eb. left; reflexivity.
        -- rewrite in_app_iff. destruct (C x Hx) as [Hx'|Hx']; [|auto]. apply Hv' in Hx'. rewrite upd_true in Hx'.
           rewrite Eb. simpl. destruct Hx' as [[->|Hx']|Hx']; auto.
      * intros l s [Hl|Hl]; [injection Hl as <- <-; assumption|auto].
Qed.

Lemma boxes_ok coef order (Q : list nat -> c3 -> Prop) :
  (forall b b', Inv b -> Q (bs_box b) (bs_size b) -> try_expand g U coef b = Some b' -> Q (bs_box b') (bs_size b')) ->
  (forall e, e < N -> U e = true -> Q [e] (C3 1 1 1)) -> Permutation order (untrimmed g U) ->
  exists boxes, box_loop g U coef order (fun _ => false) = Some boxes /\
    Permutation (concat (map fst boxes)) (untrimmed g U) /\ (forall l s, In (l, s) boxes -> Q l s).
Proof.
  intros HQ HQ1 HP.
  destruct (box_loop_ok coef Q HQ HQ1 order (fun _ => false)) as (boxes & E & A & B & C & D).
  { intros e He. apply in_untrimmed. eapply Permutation_in; [exact HP|assumption]. }
  exists boxes. split; [exact E|]. split; [|assumption].
  apply NoDup_Permutation; [assumption|apply NoDup_filter, seq_NoDup|].
  intros x. rewrite in_untrimmed. split.
  - intros Hx. destruct (B x Hx) as (? & ? & _). auto.
  - intros Hx. destruct (C x) as [?|?]; [|discriminate|assumption].
    eapply Permutation_in; [apply Permutation_sym; exact HP|]. apply in_untrimmed. assumption.
Qed.

(** ** cuboid shape *)
Hypothesis Hw : no_wrap g U.

Lemma cuboid_expand coef b b' : Inv b -> is_cuboid g (bs_box b) (bs_size b) -> try_expand g U coef b = Some b' ->
  is_cuboid g (bs_box b') (bs_size b').
Proof.
  intros HI (Hn & HN & S1 & S2 & S3 & lo & L1 & L2 & L3 & Hc) E.
  destruct (try_expand_ok coef b b' HI E) as (d & new & Enew & Hlen & Hne & Eb & Es & Hv & Hv' & HI').
  set (s := bs_size b) in *.
  assert (Hnew : forall j, In j new -> exists c', in_grid g c' /\ j = vec_of g c' /\ within (layer_lo lo s d) (layer_size s d) c' /\
             exists c, within lo s c /\ face_nb d c c' /\ ~ within lo s c').
  { intros j Hj. pose proof (Hv j Hj) as Hvj. rewrite Enew in Hj. apply in_candidates in Hj.
    destruct Hj as ((i & Hi & Ei) & Uj & _). destruct (next_index_g g i d) as [j' f] eqn:En. simpl in Ei. subst j'.
    destruct (I_cell b HI i Hi) as (Ni & Ui & Vi).
    assert (Hci : in_grid g (mat_of g i)) by (apply mat_of_in_grid; assumption).
    assert (Hbi : in_box (global_part g) (mat_of g i)) by (apply in_box_global; assumption).
    assert (Hwi : within lo s (mat_of g i)) by (apply Hc; [assumption|rewrite vec_of_mat_of; assumption]).
    destruct f.
    - unfold next_index_g in En. rewrite <- (vec_of_mat_of g i Hg) in En.
      apply step_middle_iff in En; [|apply global_part_ok; assumption|assumption].
      destruct En as (c' & Hf & Hb & ->). apply in_box_global in Hb; [|assumption].
      assert (Hout : ~ within lo s c').
      { intros Hw'. apply Hc in Hw'; [|assumption]. apply HI in Hw'. destruct Hw' as (_ & _ & Hw'). congruence. }
      exists c'. split; [assumption|]. split; [reflexivity|]. split.
      + eapply face_nb_layer; eauto.
      + exists (mat_of g i). auto.
    - exfalso. pose proof (next_global i d j _ Ni En) as Nj.
      assert (U j = false); [|congruence].
      rewrite <- (vec_of_mat_of g j Hg). apply (Hw (mat_of g i) (mat_of g j) d); auto.
      + rewrite vec_of_mat_of; assumption.
      + intros n Hn' Hgn. assert (next_index g (vec_of g (mat_of g i)) d (global_part g) = (vec_of g n, Middle)) as X.
        { apply step_middle_iff; [apply global_part_ok; assumption|assumption|]. exists n. split; [assumption|]. split; [apply in_box_global; assumption|reflexivity]. }
        rewrite vec_of_mat_of in X by assumption. unfold next_index_g in En. congruence.
      + rewrite !vec_of_mat_of by assumption. assumption.
      + apply mat_of_in_grid; assumption.
    - exfalso. apply next_global_end in En; [|assumption]. subst. congruence. }
  assert (Hnodup : NoDup new) by (rewrite Enew; apply candidates_nodup; assumption).
  assert (Hlay : forall c, in_grid g c -> (In (vec_of g c) new <-> within (layer_lo lo s d) (layer_size s d) c)).
  { assert (Hincl : incl new (map (vec_of g) (cells_in (layer_lo lo s d) (layer_size s d)))).
    { intros j Hj. destruct (Hnew j Hj) as (c' & _ & -> & Hl & _). apply in_map, in_cells_in; assumption. }
    assert (Hback : incl (map (vec_of g) (cells_in (layer_lo lo s d) (layer_size s d))) new).
    { apply NoDup_length_incl; [assumption| |assumption]. rewrite map_length, layer_length, Hlen. lia. }
    intros c Hcg. split.
    - intros Hj. destruct (Hnew _ Hj) as (c' & Hc' & Ec & Hl & _). apply vec_of_inj in Ec; [subst; assumption|assumption|assumption].
    - intros Hl. apply Hback, in_map, in_cells_in. assumption. }
  destruct new as [|j0 new0] eqn:Enn; [contradiction|]. rewrite <- Enn in *.
  destruct (Hnew j0) as (c0 & Hc0 & _ & Hl0 & cc & Hcc & Hf0 & Ho0); [rewrite Enn; left; reflexivity|].
  split; [apply HI'|]. split; [intros i Hi; apply HI'; assumption|].
  rewrite Es. clear - Hc Hlay Eb Hc0 Hl0 Hcc Hf0 Ho0 S1 S2 S3 L1 L2 L3.
  split; [unfold grow; destruct d; simpl; lia|]. split; [unfold grow; destruct d; simpl; lia|]. split; [unfold grow; destruct d; simpl; lia|].
  exists (new_lo lo d).
  unfold in_grid in Hc0. unfold within in Hl0, Hcc, Ho0. unfold face_nb in Hf0.
  split; [destruct d; simpl in *; lia|]. split; [destruct d; simpl in *; lia|]. split; [destruct d; simpl in *; lia|].
  intros c Hcg. rewrite Eb, in_app_iff, (Hc c Hcg), (Hlay c Hcg). unfold within, grow, new_lo.
  destruct d; simpl in *; lia.
Qed.

Lemma cuboid_single e : e < N -> U e = true -> is_cuboid g [e] (C3 1 1 1).
Proof.
  intros He _. pose proof (mat_of_in_grid g e Hg He) as Hc. split; [repeat constructor; simpl; tauto|].
  split; [intros i [<-|[]]; assumption|]. simpl. split; [lia|]. split; [lia|]. split; [lia|].
  exists (mat_of g e). unfold in_grid in Hc. split; [lia|]. split; [lia|]. split; [lia|].
  intros c Hcg. unfold within. cbn [cx cy cz In]. split.
  - intros [E|[]]. rewrite <- (vec_of_mat_of g e Hg) in E. apply vec_of_inj in E; [rewrite <- E; lia|assumption|assumption].
  - intros Hw'. left. rewrite <- (vec_of_mat_of g e Hg). f_equal. apply c3_eq; lia.
Qed.
End P.

Lemma interior_no_wrap g U : grid_ok g -> interior g U -> no_wrap g U.
Proof.
  intros Hg Hi c c' d Hc Hu Hno _ _. exfalso. specialize (Hi c Hc Hu).
  apply (Hno (match d with XF => C3 (cx c + 1) (cy c) (cz c) | XB => C3 (cx c - 1) (cy c) (cz c)
     | YF => C3 (cx c) (cy c + 1) (cz c) | YB => C3 (cx c) (cy c - 1) (cz c)
     | ZF => C3 (cx c) (cy c) (cz c + 1) | ZB => C3 (cx c) (cy c) (cz c - 1) end)).
  - unfold face_nb. destruct d; simpl; lia.
  - unfold in_grid in *. destruct d; simpl; lia.
Qed.
