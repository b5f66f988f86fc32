(** Merging the slab groups of the flood fill. *)
From Coq Require Import Arith List Bool ZArith Lia Permutation Sorted Relations.
From Verif Require Import GridModel GridSpec GridProofs GridStoreModel GridGeoModel Geo FloodModel FloodSpec FloodSets FloodFillProofs.
Import ListNotations.

Section M.
Variable g : grid.
Variable T : nat -> bool.
Variable P : nat -> dir -> bool.
Variable V : nat -> nat -> dir -> bool.
Hypothesis Hg : grid_ok g.

Let a := part_axis g.
Let df := walk_fwd a.
Let db := walk_bwd a.

(** ** boundary index sets *)
Lemma upper_fold : forall l l1 m s,
  (forall x, In x l1 -> P (fst (next_index_g g x df)) df = false -> (pos g a x <= m)%Z) ->
  (m = (-1)%Z \/ exists x, In x l1 /\ pos g a x = m) ->
  (forall x, In x s <-> In x l1 /\ P (fst (next_index_g g x df)) df = false /\ pos g a x = m) ->
  forall m' s', fold_left (upper_step g P a) l (m, s) = (m', s') ->
  (forall x, In x (l1 ++ l) -> P (fst (next_index_g g x df)) df = false -> (pos g a x <= m')%Z) /\
  (m' = (-1)%Z \/ exists x, In x (l1 ++ l) /\ pos g a x = m') /\
  (forall x, In x s' <-> In x (l1 ++ l) /\ P (fst (next_index_g g x df)) df = false /\ pos g a x = m').
Proof.
  induction l as [|i l IH]; intros l1 m s H1 H2 H3 m' s' E; simpl in E.
  - injection E as <- <-. rewrite app_nil_r. auto.
  - assert (Eap : l1 ++ i :: l = (l1 ++ [i]) ++ l) by (rewrite <- app_assoc; reflexivity). rewrite Eap.
    unfold upper_step at 2 in E. cbn [fst snd] in E.
    destruct (Z.leb_spec m (pos g a i)) as [Hm|Hm].
    + fold df in E. destruct (P (fst (next_index_g g i df)) df) eqn:EP.
      * apply (IH (l1 ++ [i]) m s) with (4 := E).
        -- intros x Hx Hok. apply in_app_iff in Hx. destruct Hx as [Hx|[<-|[]]]; [auto|congruence].
        -- destruct H2 as [?|(x & Hx & ?)]; [auto|]. right; exists x. rewrite in_app_iff; auto.
        -- intros x. rewrite H3, in_app_iff. simpl. split; [tauto|]. intros ([Hx|[<-|[]]] & Hok & Hp); [auto|congruence].
      * destruct (Z.ltb_spec m (pos g a i)) as [Hl|Hl].
        -- apply (IH (l1 ++ [i]) (pos g a i) (set_insert i [])) with (4 := E).
           ++ intros x Hx Hok. apply in_app_iff in Hx. destruct Hx as [Hx|[<-|[]]]; [|lia]. specialize (H1 x Hx Hok). lia.
           ++ right; exists i. rewrite in_app_iff; simpl; auto.
           ++ intros x. rewrite set_insert_In, in_app_iff. simpl. split.
              ** intros [->|[]]. auto.
              ** intros ([Hx|[<-|[]]] & Hok & Hp); [|auto]. specialize (H1 x Hx Hok). lia.
        -- assert (pos g a i = m) by lia. apply (IH (l1 ++ [i]) m (set_insert i s)) with (4 := E).
           ++ intros x Hx Hok. apply in_app_iff in Hx. destruct Hx as [Hx|[<-|[]]]; [auto|lia].
           ++ right; exists i. rewrite in_app_iff; simpl; auto.
           ++ intros x. rewrite set_insert_In, in_app_iff, H3. simpl. split.
              ** intros [->|(A & B & C)]; auto.
              ** intros ([Hx|[<-|[]]] & Hok & Hp); auto.
    + apply (IH (l1 ++ [i]) m s) with (4 := E).
      * intros x Hx Hok. apply in_app_iff in Hx. destruct Hx as [Hx|[<-|[]]]; [auto|lia].
      * destruct H2 as [?|(x & Hx & ?)]; [auto|]. right; exists x. rewrite in_app_iff; auto.
      * intros x. rewrite H3, in_app_iff. simpl. split; [tauto|]. intros ([Hx|[<-|[]]] & Hok & Hp); [auto|lia].
Qed.

Lemma lower_fold : forall l l1 m s,
  (forall x, In x l1 -> P (fst (next_index_g g x db)) db = false -> (m <= pos g a x)%Z) ->
  (m = Z.of_nat (n_at a g + 1) \/ exists x, In x l1 /\ pos g a x = m) ->
  (forall x, In x s <-> In x l1 /\ P (fst (next_index_g g x db)) db = false /\ pos g a x = m) ->
  forall m' s', fold_left (lower_step g P a) l (m, s) = (m', s') ->
  (forall x, In x (l1 ++ l) -> P (fst (next_index_g g x db)) db = false -> (m' <= pos g a x)%Z) /\
  (m' = Z.of_nat (n_at a g + 1) \/ exists x, In x (l1 ++ l) /\ pos g a x = m') /\
  (forall x, In x s' <-> In x (l1 ++ l) /\ P (fst (next_index_g g x db)) db = false /\ pos g a x = m').
Proof.
  induction l as [|i l IH]; intros l1 m s H1 H2 H3 m' s' E; simpl in E.
  - injection E as <- <-. rewrite app_nil_r. auto.
  - assert (Eap : l1 ++ i :: l = (l1 ++ [i]) ++ l) by (rewrite <- app_assoc; reflexivity). rewrite Eap.
    unfold lower_step at 2 in E. cbn [fst snd] in E.
    destruct (Z.leb_spec (pos g a i) m) as [Hm|Hm].
    + fold db in E. destruct (P (fst (next_index_g g i db)) db) eqn:EP.
      * apply (IH (l1 ++ [i]) m s) with (4 := E).
        -- intros x Hx Hok. apply in_app_iff in Hx. destruct Hx as [Hx|[<-|[]]]; [auto|congruence].
        -- destruct H2 as [?|(x & Hx & ?)]; [auto|]. right; exists x. rewrite in_app_iff; auto.
        -- intros x. rewrite H3, in_app_iff. simpl. split; [tauto|]. intros ([Hx|[<-|[]]] & Hok & Hp); [auto|congruence].
      * destruct (Z.ltb_spec (pos g a i) m) as [Hl|Hl].
        -- apply (IH (l1 ++ [i]) (pos g a i) (set_insert i [])) with (4 := E).
           ++ intros x Hx Hok. apply in_app_iff in Hx. destruct Hx as [Hx|[<-|[]]]; [|lia]. specialize (H1 x Hx Hok). lia.
           ++ right; exists i. rewrite in_app_iff; simpl; auto.
           ++ intros x. rewrite set_insert_In, in_app_iff. simpl. split.
              ** intros [->|[]]. auto.
              ** intros ([Hx|[<-|[]]] & Hok & Hp); [|auto]. specialize (H1 x Hx Hok). lia.
        -- assert (pos g a i = m) by lia. apply (IH (l1 ++ [i]) m (set_insert i s)) with (4 := E).
           ++ intros x Hx Hok. apply in_app_iff in Hx. destruct Hx as [Hx|[<-|[]]]; [auto|lia].
           ++ right; exists i. rewrite in_app_iff; simpl; auto.
           ++ intros x. rewrite set_insert_In, in_app_iff, H3. simpl. split.
              ** intros [->|(A & B & C)]; auto.
              ** intros ([Hx|[<-|[]]] & Hok & Hp); auto.
    + apply (IH (l1 ++ [i]) m s) with (4 := E).
      * intros x Hx Hok. apply in_app_iff in Hx. destruct Hx as [Hx|[<-|[]]]; [auto|lia].
      * destruct H2 as [?|(x & Hx & ?)]; [auto|]. right; exists x. rewrite in_app_iff; auto.
      * intros x. rewrite H3, in_app_iff. simpl. split; [tauto|]. intros ([Hx|[<-|[]]] & Hok & Hp); [auto|lia].
Qed.

Lemma upper_boundary_ok l : exists m : Z,
  (forall x, In x l -> P (fst (next_index_g g x df)) df = false -> (pos g a x <= m)%Z) /\
  (m = (-1)%Z \/ exists x, In x l /\ pos g a x = m) /\
  (forall x, In x (upper_boundary g P a l) <-> In x l /\ P (fst (next_index_g g x df)) df = false /\ pos g a x = m).
Proof.
  unfold upper_boundary. destruct (fold_left _ _ _) as [m s] eqn:E. exists m.
  apply (upper_fold l [] (-1)%Z []) with (4 := E); simpl; auto; tauto.
Qed.
Lemma lower_boundary_ok l : exists m : Z,
  (forall x, In x l -> P (fst (next_index_g g x db)) db = false -> (m <= pos g a x)%Z) /\
  (m = Z.of_nat (n_at a g + 1) \/ exists x, In x l /\ pos g a x = m) /\
  (forall x, In x (lower_boundary g P a l) <-> In x l /\ P (fst (next_index_g g x db)) db = false /\ pos g a x = m).
Proof.
  unfold lower_boundary. destruct (fold_left _ _ _) as [m s] eqn:E. exists m.
  apply (lower_fold l [] _ []) with (4 := E); simpl; auto; tauto.
Qed.

Lemma touches_sound d cur other : touches g d cur other = true ->
  exists i j, In i cur /\ In j other /\ next_index_g g i d = (j, Middle).
Proof.
  induction cur as [|i cur IH]; simpl; [discriminate|].
  destruct (next_index_g g i d) as [n inf] eqn:En. destruct inf; try discriminate.
  destruct (set_mem n other) eqn:Em.
  - intros _. exists i, n. apply set_mem_In in Em. auto.
  - intros H. destruct (IH H) as (i' & j & A & B & C). exists i', j. auto.
Qed.
Lemma touches_complete d cur other i j :
  (forall x, In x cur -> snd (next_index_g g x d) = Middle) -> In i cur -> In j other ->
  next_index_g g i d = (j, Middle) -> touches g d cur other = true.
Proof.
  intros Hm. induction cur as [|x cur IH]; simpl; [contradiction|]. intros Hi Hj E.
  pose proof (Hm x (or_introl eq_refl)) as Hx.
  destruct (next_index_g g x d) as [n inf] eqn:En. simpl in Hx. subst inf.
  destruct (set_mem n other) eqn:Em; [reflexivity|].
  destruct Hi as [->|Hi].
  - rewrite E in En. injection En as <-. apply set_mem_In in Hj. congruence.
  - apply IH; auto. intros y Hy. apply Hm; right; assumption.
Qed.

(** ** steps on the whole grid *)
Lemma next_global_middle i d j : i < num_elements g -> (next_index_g g i d = (j, Middle) <-> nb g d i j).
Proof.
  intros Hi. unfold next_index_g, nb.
  assert (Hc : in_grid g (mat_of g i)) by (apply mat_of_in_grid; assumption).
  assert (Hb : in_box (global_part g) (mat_of g i)) by (apply in_box_global; assumption).
  pose proof (step_middle_iff g d (global_part g) (mat_of g i) j (global_part_ok g Hg) Hb) as S.
  rewrite vec_of_mat_of in S by assumption. rewrite S. split.
  - intros (c' & Hn & Hb' & ->). apply in_box_global in Hb'; [|assumption].
    split; [assumption|]. split; [apply vec_of_bound; assumption|]. rewrite mat_of_vec_of; assumption.
  - intros (_ & Hj & Hn). exists (mat_of g j). split; [assumption|].
    split; [apply in_box_global; [assumption|apply mat_of_in_grid; assumption]|]. rewrite vec_of_mat_of; auto.
Qed.

Lemma step_middle_nb p i d j : part_ok g p -> inslab g p i ->
  (next_index g i d p = (j, Middle) <-> nb g d i j /\ inslab g p j).
Proof.
  intros Hp (Hi & Hb).
  pose proof (step_middle_iff g d p (mat_of g i) j Hp Hb) as S.
  rewrite vec_of_mat_of in S by assumption. rewrite S. unfold nb, inslab. split.
  - intros (c' & Hn & Hb' & ->). pose proof (in_box_in_grid g p c' Hp Hb') as Hc'.
    rewrite !mat_of_vec_of by assumption. pose proof (vec_of_bound g c' Hc'). auto.
  - intros ((_ & Hj & Hn) & _ & Hb'). exists (mat_of g j). rewrite vec_of_mat_of; auto.
Qed.

Lemma nb_reverse d i j : nb g d i j -> nb g (reverse_dir d) j i.
Proof.
  unfold nb, face_nb. intros (A & B & C). split; [assumption|]. split; [assumption|].
  destruct d; simpl in *; lia.
Qed.
Lemma linked_sym : symmetric_faces g T P -> forall i j, linked g T P i j -> linked g T P j i.
Proof.
  intros Hs i j (d & Hn & Ti & Tj & HP). exists (reverse_dir d). split; [apply nb_reverse; assumption|].
  split; [assumption|]. split; [assumption|]. rewrite <- (Hs d i j Hn Ti Tj). assumption.
Qed.
Lemma connected_sym : symmetric_faces g T P -> forall i j, connected g T P i j -> connected g T P j i.
Proof.
  intros Hs i j H. induction H as [i j H|i|i j k H1 IH1 H2 IH2].
  - apply rt_step, linked_sym; assumption.
  - apply rt_refl.
  - eapply rt_trans; eassumption.
Qed.

Lemma walk_rev : reverse_dir df = db /\ reverse_dir db = df.
Proof. unfold df, db. destruct a; split; reflexivity. Qed.

Lemma nb_pos_fwd i j : nb g df i j -> pos g a j = (pos g a i + 1)%Z.
Proof. unfold nb, df, pos. destruct a; simpl; intros (_ & _ & H); lia. Qed.
Lemma nb_pos_bwd i j : nb g db i j -> (pos g a j + 1 = pos g a i)%Z.
Proof. unfold nb, db, pos. destruct a; simpl; intros (_ & _ & H); lia. Qed.
Lemma nb_pos_other d i j : d <> df -> d <> db -> nb g d i j -> pos g a j = pos g a i.
Proof.
  unfold nb, df, db, pos. intros H1 H2 (_ & _ & H).
  destruct a, d; simpl in *; try congruence; f_equal; lia.
Qed.

Lemma fwd_middle i : i < num_elements g -> (pos g a i + 1 < Z.of_nat (n_at a g))%Z ->
  exists j, nb g df i j.
Proof.
  intros Hi Hp. pose proof (mat_of_in_grid g i Hg Hi) as Hc.
  assert (exists c', in_grid g c' /\ face_nb df (mat_of g i) c') as (c' & Hc' & Hn).
  { unfold pos, df, in_grid in *. destruct a; simpl in *;
      [ exists (C3 (cx (mat_of g i) + 1) (cy (mat_of g i)) (cz (mat_of g i)))
      | exists (C3 (cx (mat_of g i)) (cy (mat_of g i) + 1) (cz (mat_of g i)))
      | exists (C3 (cx (mat_of g i)) (cy (mat_of g i)) (cz (mat_of g i) + 1)) ]; simpl; lia. }
  exists (vec_of g c'). split; [assumption|]. split; [apply vec_of_bound; assumption|]. rewrite mat_of_vec_of; assumption.
Qed.
Lemma bwd_middle i : i < num_elements g -> (0 < pos g a i)%Z -> exists j, nb g db i j.
Proof.
  intros Hi Hp. pose proof (mat_of_in_grid g i Hg Hi) as Hc.
  assert (exists c', in_grid g c' /\ face_nb db (mat_of g i) c') as (c' & Hc' & Hn).
  { unfold pos, db, in_grid in *. destruct a; simpl in *;
      [ exists (C3 (cx (mat_of g i) - 1) (cy (mat_of g i)) (cz (mat_of g i)))
      | exists (C3 (cx (mat_of g i)) (cy (mat_of g i) - 1) (cz (mat_of g i)))
      | exists (C3 (cx (mat_of g i)) (cy (mat_of g i)) (cz (mat_of g i) - 1)) ]; simpl; lia. }
  exists (vec_of g c'). split; [assumption|]. split; [apply vec_of_bound; assumption|]. rewrite mat_of_vec_of; assumption.
Qed.

(** ** the groups produced by the slabs *)
Variable threads : nat.
Hypothesis Ht : 0 < threads.
Let ps := partitions g threads.
Let sz := part_size (n_at a g) threads.

Definition cells (gr : group) := g_set gr.

(** a slab group with its slab *)
Definition grp_ok (gr : group) : Prop :=
  exists p, nth_error ps (g_part gr) = Some p /\ slab_group g T P V p (g_part gr) gr.

Lemma inslab_pos k p i : nth_error ps k = Some p ->
  (inslab g p i <-> i < num_elements g /\ (Z.of_nat (sz * k) <= pos g a i < Z.of_nat (sz * (k + 1)))%Z).
Proof.
  intros Hk. destruct (partitions_nth g threads k p Hk) as (-> & Hlt). unfold inslab.
  fold a sz. fold a sz in Hlt.
  assert (B := slab_in_box g sz k (mat_of g i) Hg (part_size_pos _ _) Hlt). fold a in B.
  unfold pos. split.
  - intros (Hi & Hb). split; [assumption|]. apply B in Hb. lia.
  - intros (Hi & Hb). split; [assumption|]. apply B. split; [apply mat_of_in_grid; assumption|]. lia.
Qed.

Let total i := (face_votes g P V i + wrap_votes g P V df db i)%Z.

Lemma neighbour_iff i d j : i < num_elements g -> (neighbour g i d = Some j <-> nb g d i j).
Proof.
  intros Hi. pose proof (mat_of_in_grid g i Hg Hi) as Hc. unfold nb.
  assert (B : forall c', in_grid g c' -> face_nb d (mat_of g i) c' ->
     Some (vec_of g c') = Some j <-> i < num_elements g /\ j < num_elements g /\ face_nb d (mat_of g i) (mat_of g j)).
  { intros c' Hc' Hn. split.
    - intros E; injection E as <-. rewrite mat_of_vec_of by assumption. auto using vec_of_bound.
    - intros (_ & Hj & Hn'). rewrite <- (vec_of_mat_of g j Hg). do 2 f_equal.
      apply c3_eq; destruct d; simpl in *; lia. }
  assert (N : (forall c', in_grid g c' -> ~ face_nb d (mat_of g i) c') ->
     None = Some j <-> i < num_elements g /\ j < num_elements g /\ face_nb d (mat_of g i) (mat_of g j)).
  { intros H. split; [discriminate|]. intros (_ & Hj & Hn'). exfalso. apply (H (mat_of g j)); [apply mat_of_in_grid; assumption|assumption]. }
  unfold neighbour, in_grid in *.
  destruct d; cbv beta zeta; match goal with |- context [Nat.ltb ?x ?y] => destruct (Nat.ltb_spec x y) end;
    first [apply B; cbn [face_nb cx cy cz]; lia | apply N; cbn [face_nb]; intros c' H1 H2; lia].
Qed.

Lemma lvote_in p i d j : part_ok g p -> inslab g p i -> nb g d i j -> inslab g p j -> lvote g P V p i d = vote P V i j d.
Proof.
  intros Hp Hi Hn Hj. unfold lvote. rewrite (proj2 (step_middle_nb p i d j Hp Hi) (conj Hn Hj)). reflexivity.
Qed.
Lemma lvote_out p i d : part_ok g p -> inslab g p i -> (forall j, nb g d i j -> ~ inslab g p j) -> lvote g P V p i d = 0%Z.
Proof.
  intros Hp Hi H. unfold lvote. destruct (next_index g i d p) as [n inf] eqn:E. destruct inf; try reflexivity.
  apply (step_middle_nb p i d n Hp Hi) in E. destruct E as [E1 E2]. exfalso. eapply H; eauto.
Qed.

Definition nvote i d : Z := match neighbour g i d with Some j => vote P V i j d | None => 0%Z end.

Lemma pos_bound i : i < num_elements g -> (0 <= pos g a i < Z.of_nat (n_at a g))%Z.
Proof.
  intros Hi. pose proof (mat_of_in_grid g i Hg Hi) as (H1 & H2 & H3). unfold pos. destruct a; cbn [c_at n_at]; lia.
Qed.

Lemma slab_ends k p : nth_error ps k = Some p ->
  c_at a (pfirst p) = sz * k /\ c_at a (psecond p) = Nat.min (sz * (k + 1)) (n_at a g) - 1 /\ sz * k < n_at a g /\ 0 < sz.
Proof.
  intros Hk. destruct (partitions_nth g threads k p Hk) as (-> & Hlt). fold a sz. fold a sz in Hlt.
  unfold slab. fold a. split; [|split; [|split; [assumption|apply part_size_pos]]]; destruct a; reflexivity.
Qed.

Lemma side_vote k p i d : nth_error ps k = Some p -> inslab g p i -> d <> df -> d <> db ->
  lvote g P V p i d = nvote i d.
Proof.
  intros Hk Hs H1 H2. assert (Hp : part_ok g p) by (eapply partitions_ok; eauto).
  pose proof Hs as (Hi & _). unfold nvote. destruct (neighbour g i d) as [j|] eqn:E.
  - apply neighbour_iff in E; [|assumption]. apply lvote_in; auto.
    rewrite (inslab_pos k p) in * by assumption. rewrite (nb_pos_other d i j) by assumption.
    destruct E as (_ & ? & _). tauto.
  - apply lvote_out; auto. intros j Hj. apply neighbour_iff in Hj; [|assumption]. congruence.
Qed.

Lemma fwd_vote k p i : nth_error ps k = Some p -> inslab g p i ->
  (lvote g P V p i df +
   (if (c_at a (mat_of g i) =? c_at a (psecond p))%nat then vote P V i (fst (next_index_g g i df)) df else 0) =
   nvote i df + wrap_vote g P V i df)%Z.
Proof.
  intros Hk Hs. assert (Hp : part_ok g p) by (eapply partitions_ok; eauto).
  pose proof Hs as (Hi & _). pose proof (proj1 (inslab_pos k p i Hk) Hs) as (_ & Hpos).
  destruct (slab_ends k p Hk) as (_ & E2 & Hk1 & Hsz). rewrite E2.
  pose proof (pos_bound i Hi) as Hpb.
  unfold nvote, wrap_vote. destruct (neighbour g i df) as [j|] eqn:E.
  - apply neighbour_iff in E; [|assumption]. pose proof (nb_pos_fwd i j E) as Ej.
    pose proof E as (_ & Hj & _). pose proof (pos_bound j Hj) as Hjb.
    rewrite (proj2 (next_global_middle i df j Hi) E). cbn [fst].
    destruct (Nat.eqb_spec (c_at a (mat_of g i)) (Nat.min (sz * (k + 1)) (n_at a g) - 1)) as [Eq|Ne].
    + rewrite lvote_out; auto; [lia|]. intros j' Hj'. rewrite (inslab_pos k p) by assumption.
      pose proof (nb_pos_fwd i j' Hj') as Ej'. unfold pos in *. lia.
    + assert (Hin : inslab g p j) by (rewrite (inslab_pos k p) by assumption; split; [assumption | unfold pos in *; lia]).
      rewrite (lvote_in p i df j) by assumption. lia.
  - assert (No : forall j, ~ nb g df i j) by (intros j Hj; apply neighbour_iff in Hj; [congruence|assumption]).
    rewrite lvote_out by (auto; intros j Hj; exfalso; eapply No; eauto).
    destruct (Nat.eqb_spec (c_at a (mat_of g i)) (Nat.min (sz * (k + 1)) (n_at a g) - 1)) as [Eq|Ne]; [lia|].
    exfalso. destruct (fwd_middle i Hi) as (j & Hj); [unfold pos in *; lia | eapply No; eauto].
Qed.

Lemma bwd_vote k p i : nth_error ps k = Some p -> inslab g p i ->
  (lvote g P V p i db +
   (if (c_at a (mat_of g i) =? c_at a (pfirst p))%nat then vote P V i (fst (next_index_g g i db)) db else 0) =
   nvote i db + wrap_vote g P V i db)%Z.
Proof.
  intros Hk Hs. assert (Hp : part_ok g p) by (eapply partitions_ok; eauto).
  pose proof Hs as (Hi & _). pose proof (proj1 (inslab_pos k p i Hk) Hs) as (_ & Hpos).
  destruct (slab_ends k p Hk) as (E1 & E2 & Hk1 & Hsz). rewrite E1.
  pose proof (pos_bound i Hi) as Hpb.
  unfold nvote, wrap_vote. destruct (neighbour g i db) as [j|] eqn:E.
  - apply neighbour_iff in E; [|assumption]. pose proof (nb_pos_bwd i j E) as Ej.
    pose proof E as (_ & Hj & _). pose proof (pos_bound j Hj) as Hjb.
    rewrite (proj2 (next_global_middle i db j Hi) E). cbn [fst].
    destruct (Nat.eqb_spec (c_at a (mat_of g i)) (sz * k)) as [Eq|Ne].
    + rewrite lvote_out; auto; [lia|]. intros j' Hj'. rewrite (inslab_pos k p) by assumption.
      pose proof (nb_pos_bwd i j' Hj') as Ej'. unfold pos in *. lia.
    + assert (Hin : inslab g p j) by (rewrite (inslab_pos k p) by assumption; split; [assumption | unfold pos in *; lia]).
      rewrite (lvote_in p i db j) by assumption. lia.
  - assert (No : forall j, ~ nb g db i j) by (intros j Hj; apply neighbour_iff in Hj; [congruence|assumption]).
    rewrite lvote_out by (auto; intros j Hj; exfalso; eapply No; eauto).
    destruct (Nat.eqb_spec (c_at a (mat_of g i)) (sz * k)) as [Eq|Ne]; [lia|].
    exfalso. destruct (bwd_middle i Hi) as (j & Hj); [unfold pos in *; lia | eapply No; eauto].
Qed.

Lemma lvotes_total k p i : nth_error ps k = Some p -> inslab g p i ->
  (lvotes g P V p i + boundary_votes g P V a p i)%Z = total i.
Proof.
  intros Hk Hs. pose proof (fwd_vote k p i Hk Hs) as F. pose proof (bwd_vote k p i Hk Hs) as B.
  pose proof (fun d => side_vote k p i d Hk Hs) as S.
  unfold total, lvotes, dsum, face_votes, wrap_votes, boundary_votes, directions, nvote in *. cbn [fold_right].
  fold df db. unfold vote, inside_count in F, B |- *. cbv zeta in *.
  unfold vote in S.
  unfold df, db in *. destruct a; cbn [walk_fwd walk_bwd] in *;
    rewrite ?(S XF), ?(S XB), ?(S YF), ?(S YB), ?(S ZF), ?(S ZB) by discriminate; lia.
Qed.

(** ** which groups are merged *)
Let wb := with_boundary g P V a ps.
Definition adj (c o : group) : bool := near (g_part c) (g_part o) && are_neighbours g a (wb c) (wb o).

Lemma next_db_fst i j : i < num_elements g -> nb g db i j -> fst (next_index_g g i db) = j.
Proof. intros Hi Hn. rewrite (proj2 (next_global_middle i db j Hi) Hn). reflexivity. Qed.
Lemma next_df_fst i j : i < num_elements g -> nb g df i j -> fst (next_index_g g i df) = j.
Proof. intros Hi Hn. rewrite (proj2 (next_global_middle i df j Hi) Hn). reflexivity. Qed.

Lemma grp_cell gr i : grp_ok gr -> In i (g_set gr) -> i < num_elements g /\ T i = false.
Proof. intros (p & Hp & Hs) Hi. destruct (sg_cell _ _ _ _ _ _ _ Hs i Hi) as ((? & _) & ?). auto. Qed.

Lemma adj_linked c o : grp_ok c -> grp_ok o -> adj c o = true ->
  exists i j, In i (g_set c) /\ In j (g_set o) /\ linked g T P i j.
Proof.
  intros Hc Ho H. unfold adj in H. apply andb_true_iff in H. destruct H as [_ H].
  unfold are_neighbours in H. apply orb_true_iff in H.
  destruct H as [H|H]; apply touches_sound in H; destruct H as (i & j & Hi & Hj & Hn); unfold wb in Hi, Hj; simpl in Hi, Hj.
  - destruct (upper_boundary_ok (g_set c)) as (m & _ & _ & B). apply B in Hi. destruct Hi as (Hi & Pi & _).
    destruct (lower_boundary_ok (g_set o)) as (m' & _ & _ & B'). apply B' in Hj. destruct Hj as (Hj & _).
    destruct (grp_cell c i Hc Hi) as (Ni & Ti), (grp_cell o j Ho Hj) as (Nj & Tj).
    exists i, j. split; [assumption|]. split; [assumption|]. fold df in Hn. apply next_global_middle in Hn; [|assumption].
    rewrite (next_df_fst i j Ni Hn) in Pi. exists df. auto.
  - destruct (lower_boundary_ok (g_set c)) as (m & _ & _ & B). apply B in Hi. destruct Hi as (Hi & Pi & _).
    destruct (upper_boundary_ok (g_set o)) as (m' & _ & _ & B'). apply B' in Hj. destruct Hj as (Hj & _).
    destruct (grp_cell c i Hc Hi) as (Ni & Ti), (grp_cell o j Ho Hj) as (Nj & Tj).
    exists i, j. split; [assumption|]. split; [assumption|]. fold db in Hn. apply next_global_middle in Hn; [|assumption].
    rewrite (next_db_fst i j Ni Hn) in Pi. exists db. auto.
Qed.

(** a link in the forward direction between two slabs *)
Lemma fwd_link_boundary c o i j : grp_ok c -> grp_ok o -> In i (g_set c) -> In j (g_set o) ->
  nb g df i j -> P j df = false -> P i db = false -> g_part o = g_part c + 1 ->
  In i (b_upper (wb c)) /\ In j (b_lower (wb o)) /\
  (forall x, In x (b_upper (wb c)) -> snd (next_index_g g x df) = Middle) /\
  (forall x, In x (b_lower (wb o)) -> snd (next_index_g g x db) = Middle).
Proof.
  intros Hc Ho Hi Hj Hn Pj Pi Ek.
  destruct (grp_cell c i Hc Hi) as (Ni & Ti), (grp_cell o j Ho Hj) as (Nj & Tj).
  pose proof Hc as (p & Hp & Sc). pose proof Ho as (p' & Hp' & So). rewrite Ek in Hp'.
  assert (Bc : forall x, In x (g_set c) -> x < num_elements g /\ (Z.of_nat (sz * g_part c) <= pos g a x < Z.of_nat (sz * (g_part c + 1)))%Z).
  { intros x Hx. apply (inslab_pos _ _ x Hp). apply (sg_cell _ _ _ _ _ _ _ Sc x Hx). }
  assert (Bo : forall x, In x (g_set o) -> x < num_elements g /\ (Z.of_nat (sz * (g_part c + 1)) <= pos g a x < Z.of_nat (sz * (g_part c + 1 + 1)))%Z).
  { intros x Hx. apply (inslab_pos _ _ x Hp'). apply (sg_cell _ _ _ _ _ _ _ So x Hx). }
  pose proof (nb_pos_fwd i j Hn) as Ep. pose proof (Bc i Hi) as (_ & Bi). pose proof (Bo j Hj) as (_ & Bj).
  pose proof (pos_bound i Ni) as Bni. pose proof (pos_bound j Nj) as Bnj.
  pose proof (nb_reverse df i j Hn) as Hnr. rewrite (proj1 walk_rev) in Hnr.
  destruct (upper_boundary_ok (g_set c)) as (m & U1 & U2 & U3).
  destruct (lower_boundary_ok (g_set o)) as (m' & L1 & L2 & L3).
  unfold wb, with_boundary; cbn [b_upper b_lower].
  assert (Em : m = pos g a i).
  { specialize (U1 i Hi). rewrite (next_df_fst i j Ni Hn) in U1. specialize (U1 Pj).
    destruct U2 as [->|(x & Hx & <-)]; [lia|]. destruct (Bc x Hx). lia. }
  assert (Em' : m' = pos g a j).
  { specialize (L1 j Hj). rewrite (next_db_fst j i Nj Hnr) in L1. specialize (L1 Pi).
    destruct L2 as [->|(x & Hx & <-)]; [lia|]. destruct (Bo x Hx). lia. }
  split; [|split; [|split]].
  - apply U3. rewrite (next_df_fst i j Ni Hn). auto.
  - apply L3. rewrite (next_db_fst j i Nj Hnr). auto.
  - intros x Hx. apply U3 in Hx. destruct Hx as (Hx & _ & Ex). destruct (Bc x Hx) as (Nx & _).
    destruct (fwd_middle x Nx) as (y & Hy); [lia|]. rewrite (proj2 (next_global_middle x df y Nx) Hy). reflexivity.
  - intros x Hx. apply L3 in Hx. destruct Hx as (Hx & _ & Ex). destruct (Bo x Hx) as (Nx & _).
    destruct (bwd_middle x Nx) as (y & Hy); [lia|]. rewrite (proj2 (next_global_middle x db y Nx) Hy). reflexivity.
Qed.

Lemma near_succ x y : y = x + 1 \/ x = y + 1 -> near x y = true.
Proof. intros H. unfold near. apply Z.leb_le. lia. Qed.

Lemma linked_adj c o i j : symmetric_faces g T P -> grp_ok c -> grp_ok o -> In i (g_set c) -> In j (g_set o) ->
  linked g T P i j -> ~ In j (g_set c) -> adj c o = true.
Proof.
  intros Hs Hc Ho Hi Hj (d & Hn & Ti & Tj & HP) Hnj.
  pose proof Hc as (p & Hp & Sc). pose proof Ho as (p' & Hp' & So).
  pose proof (proj1 (sg_cell _ _ _ _ _ _ _ Sc i Hi)) as Hsi.
  pose proof (proj1 (sg_cell _ _ _ _ _ _ _ So j Hj)) as Hsj.
  assert (Hpo : part_ok g p) by (eapply partitions_ok; eauto).
  assert (Hout : ~ inslab g p j).
  { intros Hin. apply Hnj. apply (sg_closed _ _ _ _ _ _ _ Sc Hs i j Hi).
    exists d. split; [|auto]. apply step_middle_nb; auto. }
  assert (Bi := proj1 (inslab_pos _ _ i Hp) Hsi). assert (Bj := proj1 (inslab_pos _ _ j Hp') Hsj).
  rewrite (inslab_pos _ _ j Hp) in Hout. destruct Bi as (Ni & Bi), Bj as (Nj & Bj).
  assert (Hsz : 0 < sz) by apply part_size_pos.
  assert (Hrev : P i (reverse_dir d) = false) by (rewrite <- (Hs d i j Hn Ti Tj); assumption).
  assert (Dd : d = df \/ d = db \/ (d <> df /\ d <> db)).
  { assert (De : forall x y : dir, x = y \/ x <> y) by (intros x y; destruct x, y; auto; right; discriminate).
    destruct (De d df); [auto|]. destruct (De d db); auto. }
  destruct Dd as [->|[->|[D1 D2]]].
  - pose proof (nb_pos_fwd i j Hn) as Ep. rewrite (proj1 walk_rev) in Hrev.
    assert (Ek : g_part o = g_part c + 1).
    { assert (g_part c < g_part o) by nia. assert (g_part o <= g_part c + 1) by nia. lia. }
    destruct (fwd_link_boundary c o i j Hc Ho Hi Hj Hn HP Hrev Ek) as (A & B & C & D).
    unfold adj. rewrite near_succ by auto. simpl. apply orb_true_iff. left. fold df.
    eapply touches_complete; eauto. apply next_global_middle; assumption.
  - pose proof (nb_pos_bwd i j Hn) as Ep. rewrite (proj2 walk_rev) in Hrev.
    assert (Ek : g_part c = g_part o + 1).
    { assert (g_part o < g_part c) by nia. assert (g_part c <= g_part o + 1) by nia. lia. }
    pose proof (nb_reverse db i j Hn) as Hnr. rewrite (proj2 walk_rev) in Hnr.
    destruct (fwd_link_boundary o c j i Ho Hc Hj Hi Hnr Hrev HP Ek) as (A & B & C & D).
    unfold adj. rewrite near_succ by auto. simpl. apply orb_true_iff. right. fold db.
    eapply touches_complete; eauto. apply next_global_middle; assumption.
  - exfalso. pose proof (nb_pos_other d i j D1 D2 Hn) as Ep. apply Hout. split; [assumption|]. lia.
Qed.

(** ** merging *)
Variable gs : list group.
Hypothesis Hgs : forall gr, In gr gs -> grp_ok gr.
Hypothesis Hdisj : NoDup (concat (map g_set gs)).

Definition cellsof (x : nat) : list nat := match nth_error gs x with Some gr => g_set gr | None => [] end.
Definition cntof (x : nat) : Z := match nth_error gs x with Some gr => g_count (b_group (wb gr)) | None => 0%Z end.
Definition adjx (cur : group) (x : nat) : Prop := exists go, nth_error gs x = Some go /\ adj cur go = true.
Definition adji (x y : nat) : Prop := exists gc, nth_error gs x = Some gc /\ adjx gc y.

Definition mok (I : list nat) (m : group) : Prop :=
  ssorted (g_set m) /\ (forall y, In y (g_set m) <-> exists x, In x I /\ In y (cellsof x)) /\
  g_count m = zsum cntof I.

Lemma mok_perm I I' m : Permutation I I' -> mok I m -> mok I' m.
Proof.
  intros HP (A & B & C). split; [assumption|]. split.
  - intros y. rewrite B. split; intros (x & Hx & Hy); exists x; split; auto.
    + eapply Permutation_in; [exact HP|assumption].
    + eapply Permutation_in; [apply Permutation_sym; exact HP|assumption].
  - rewrite C. apply zsum_perm. assumption.
Qed.

Lemma scan_ok cur : forall l i0 vis stack m I vis' stack' m',
  (forall k, nth_error l k = nth_error gs (i0 + k)) -> mok I m ->
  scan_groups g a (wb cur) (map wb l) i0 vis stack m = (vis', stack', m') ->
  exists new, NoDup new /\ (forall x, In x new <-> i0 <= x /\ vis x = false /\ adjx cur x) /\
    (forall x, vis' x = true <-> vis x = true \/ In x new) /\ stack' = rev new ++ stack /\ mok (new ++ I) m'.
Proof.
  induction l as [|o l IH]; intros i0 vis stack m I vis' stack' m' Hl Hm; cbn [map scan_groups].
  - intros E; injection E as <- <- <-. exists []. split; [constructor|]. split; [|split; [|split; [reflexivity|exact Hm]]].
    + intros x. split; [intros []|]. intros (Hx & _ & go & Hgo & _).
      specialize (Hl (x - i0)). replace (i0 + (x - i0)) with x in Hl by lia. rewrite Hgo in Hl.
      destruct (x - i0); discriminate.
    + simpl. tauto.
  - assert (Ho : nth_error gs i0 = Some o) by (specialize (Hl 0); simpl in Hl; rewrite Nat.add_0_r in Hl; auto).
    assert (Hl' : forall k, nth_error l k = nth_error gs (i0 + 1 + k)).
    { intros k. specialize (Hl (S k)). simpl in Hl. rewrite Hl. f_equal. lia. }
    rewrite <- andb_assoc.
    change (near (g_part (b_group (wb cur))) (g_part (b_group (wb o))) && are_neighbours g a (wb cur) (wb o)) with (adj cur o).
    destruct (vis i0) eqn:Ev; cbn [negb andb].
    + intros E. destruct (IH _ _ _ _ _ _ _ _ Hl' Hm E) as (new & A & B & C & D & F).
      exists new. split; [assumption|]. split; [|auto]. intros x. rewrite B. split; [intuition lia|].
      intros (Hx & Hv & Hadj). split; [|auto]. destruct (Nat.eq_dec x i0); [congruence|lia].
    + destruct (adj cur o) eqn:Eadj.
      * intros E.
        assert (Hm1 : mok (i0 :: I) (Group (g_part m) (set_union (g_set m) (g_set o)) (g_count m + g_count (b_group (wb o))))).
        { destruct Hm as (A & B & C). split; [apply set_union_sorted; assumption|]. split.
          - intros y. cbn [g_set]. rewrite set_union_In, B. split.
            + intros [(x & Hx & Hy)|Hy]; [exists x; simpl; auto|]. exists i0. split; [left; reflexivity|].
              unfold cellsof. rewrite Ho. assumption.
            + intros (x & [<-|Hx] & Hy); [right; unfold cellsof in Hy; rewrite Ho in Hy; assumption | left; exists x; auto].
          - cbn [g_count zsum]. rewrite C. unfold cntof at 2. rewrite Ho. lia. }
        destruct (IH _ _ _ _ _ _ _ _ Hl' Hm1 E) as (new & A & B & C & D & F).
        exists (i0 :: new). split; [|split; [|split; [|split]]].
        -- constructor; [|assumption]. intros Hin. apply B in Hin. lia.
        -- intros x. simpl. rewrite B. split.
           ++ intros [<-|(Hx & Hv & Ha)].
              ** split; [lia|]. split; [assumption|]. exists o; auto.
              ** split; [lia|]. split; [|assumption]. unfold upd in Hv. destruct (x =? i0); [discriminate|assumption].
           ++ intros (Hx & Hv & Ha). destruct (Nat.eq_dec i0 x); [auto|]. right. split; [lia|]. split; [|assumption].
              unfold upd. destruct (Nat.eqb_spec x i0); [lia|assumption].
        -- intros x. rewrite C, upd_true. simpl. intuition.
        -- rewrite D. simpl. rewrite <- app_assoc. reflexivity.
        -- eapply mok_perm; [|exact F]. simpl. apply Permutation_sym, Permutation_middle.
      * intros E. destruct (IH _ _ _ _ _ _ _ _ Hl' Hm E) as (new & A & B & C & D & F).
        exists new. split; [assumption|]. split; [|auto]. intros x. rewrite B. split; [intuition lia|].
        intros (Hx & Hv & Ha). split; [|auto]. destruct (Nat.eq_dec x i0) as [->|]; [|lia].
        destruct Ha as (go & Hgo & Ha). congruence.
Qed.

Definition areach : nat -> nat -> Prop := clos_refl_trans nat adji.

Lemma group_loop_ok W r : forall fuel stack vis m I,
  NoDup I -> (forall x, In x I -> x < length gs /\ W x = false /\ areach r x) ->
  (forall x, vis x = true <-> W x = true \/ In x I) -> mok I m -> NoDup stack -> incl stack I ->
  (forall x, In x I -> ~ In x stack -> forall y, adji x y -> vis y = true) ->
  length gs + length stack < fuel + length I ->
  exists vis' m' I', group_loop g fuel a (map wb gs) stack vis m = Some (vis', m') /\
    incl I I' /\ NoDup I' /\ (forall x, In x I' -> x < length gs /\ W x = false /\ areach r x) /\
    (forall x, vis' x = true <-> W x = true \/ In x I') /\ mok I' m' /\
    (forall x, In x I' -> forall y, adji x y -> vis' y = true).
Proof.
  induction fuel as [|fuel IH]; intros stack vis m I HN HI HV HM HNs Hs Hc Hf.
  - exfalso. assert (length I <= length gs) by (apply NoDup_bounded; [assumption|intros x Hx; apply HI; assumption]). lia.
  - destruct stack as [|c stack]; cbn [group_loop].
    + exists vis, m, I. split; [reflexivity|]. split; [apply incl_refl|]. split; [assumption|]. split; [assumption|].
      split; [assumption|]. split; [assumption|]. intros x Hx. apply Hc; auto.
    + assert (HcI : In c I) by (apply Hs; left; reflexivity).
      destruct (HI c HcI) as (Hlt & HWc & Hrc).
      rewrite nth_error_map. destruct (nth_error gs c) as [cur|] eqn:Ecur; [|apply nth_error_None in Ecur; lia].
      simpl. destruct (scan_groups g a (wb cur) (map wb gs) 0 vis stack m) as [[vis1 stack1] m1] eqn:E.
      destruct (scan_ok cur gs 0 vis stack m I vis1 stack1 m1 (fun k => eq_refl) HM E) as (new & A & B & C & D & F).
      inversion HNs as [|? ? Hnc HNs']; subst.
      assert (Hdis : forall x, In x new -> ~ In x I).
      { intros x Hx HxI. apply B in Hx. destruct Hx as (_ & Hv & _). rewrite (proj2 (HV x) (or_intror HxI)) in Hv. discriminate. }
      destruct (IH (rev new ++ stack) vis1 m1 (new ++ I)) as (vis' & m' & I' & R).
      * apply NoDup_app_iff. auto.
      * intros x Hx. apply in_app_iff in Hx. destruct Hx as [Hx|Hx]; [|auto].
        apply B in Hx. destruct Hx as (_ & Hv & Ha). split; [|split].
        -- destruct Ha as (go & Hgo & _). apply nth_error_Some. congruence.
        -- destruct (W x) eqn:EW; [|reflexivity]. rewrite (proj2 (HV x) (or_introl EW)) in Hv. discriminate.
        -- eapply rt_trans; [exact Hrc|]. apply rt_step. exists cur. auto.
      * intros x. rewrite C, HV, in_app_iff. tauto.
      * assumption.
      * apply NoDup_app_iff. split; [apply NoDup_rev; assumption|]. split; [assumption|].
        intros x Hx Hx'. apply in_rev in Hx. apply (Hdis x Hx). apply Hs. right; assumption.
      * intros x Hx. apply in_app_iff in Hx. apply in_app_iff. destruct Hx as [Hx|Hx]; [left; apply in_rev; assumption|].
        right. apply Hs. right; assumption.
      * intros x Hx Hnx y Hy. rewrite in_app_iff, <- in_rev in Hnx. apply in_app_iff in Hx.
        destruct Hx as [Hx|Hx]; [tauto|]. apply C. destruct (Nat.eq_dec x c) as [->|Hne].
        -- destruct (vis y) eqn:Ey; [auto|]. right. apply B. split; [lia|]. split; [assumption|].
           destruct Hy as (gc & Egc & Hy). congruence.
        -- left. apply (Hc x Hx); [|assumption]. intros [->|?]; tauto.
      * rewrite !app_length, rev_length. simpl in Hf. lia.
      * destruct R as (R1 & R2 & R3). exists vis', m', I'. split; [exact R1|]. split; [|exact R3].
        intros x Hx. apply R2, in_app_iff; auto.
Qed.

(** the result of merging: index lists *)
Record merged (Is : list (list nat)) (out : list group) (vis : nat -> bool) : Prop := {
  m_mok : Forall2 mok Is out;
  m_nodup : NoDup (concat Is);
  m_vis : forall x, vis x = true <-> In x (concat Is);
  m_lt : forall x, In x (concat Is) -> x < length gs;
  m_conn : forall I, In I Is -> exists r, In r I /\ forall x, In x I -> areach r x;
  m_adj : forall x y, vis x = true -> adji x y -> vis y = true;
  m_closed : (forall x y, adji x y -> adji y x) -> forall I, In I Is -> forall x y, In x I -> adji x y -> In y I
}.

Lemma merge_loop_ok : forall idx Is out vis, (forall x, In x idx -> x < length gs) -> merged Is out vis ->
  exists Is' out' vis', merge_loop g a (map wb gs) idx vis out = Some out' /\ merged Is' out' vis' /\
    (forall x, vis x = true -> vis' x = true) /\ (forall x, In x idx -> vis' x = true).
Proof.
  induction idx as [|i idx IH]; intros Is out vis Hi HM; cbn [merge_loop].
  - exists Is, out, vis. split; [reflexivity|]. split; [assumption|]. split; [auto|]. intros x [].
  - destruct (vis i) eqn:Ev.
    + destruct (IH Is out vis) as (Is' & out' & vis' & E & M & A & B); [intros x Hx; apply Hi; right; assumption|assumption|].
      exists Is', out', vis'. split; [exact E|]. split; [assumption|]. split; [assumption|].
      intros x [<-|Hx]; auto.
    + rewrite nth_error_map. destruct (nth_error gs i) as [gi|] eqn:Egi.
      2:{ exfalso. apply nth_error_None in Egi. specialize (Hi i (or_introl eq_refl)). lia. }
      cbn [option_map]. rewrite map_length.
      destruct (group_loop_ok vis i (S (length gs)) [i] (upd vis i true) (b_group (wb gi)) [i])
        as (vis1 & m1 & I & E & A1 & A2 & A3 & A4 & A5 & A6).
      * repeat constructor; simpl; tauto.
      * intros x [<-|[]]. split; [apply Hi; left; reflexivity|]. split; [assumption|apply rt_refl].
      * intros x. rewrite upd_true. simpl. intuition.
      * assert (Hgi : grp_ok gi) by (apply Hgs; eapply nth_error_In; eauto).
        destruct Hgi as (p & Hp & Sg). split; [apply Sg|]. split.
        -- intros y. simpl. unfold cellsof. split.
           ++ intros Hy. exists i. split; [auto|]. rewrite Egi. assumption.
           ++ intros (x & [<-|[]] & Hy). rewrite Egi in Hy. assumption.
        -- cbn [zsum]. unfold cntof. rewrite Egi. lia.
      * repeat constructor; simpl; tauto.
      * apply incl_refl.
      * intros x [<-|[]] Hn. exfalso. apply Hn. left; reflexivity.
      * simpl. lia.
      * rewrite E. destruct HM as [B1 B2 B3 B4 B5 B6 B7].
        assert (HM1 : merged (Is ++ [I]) (out ++ [m1]) vis1).
        { constructor.
          - apply Forall2_app; [assumption|]. constructor; [assumption|constructor].
          - rewrite concat_app. simpl. rewrite app_nil_r. apply NoDup_app_iff. split; [assumption|]. split; [assumption|].
            intros x Hx Hx'. apply A3 in Hx'. apply B3 in Hx. destruct Hx' as (_ & Hw & _). congruence.
          - intros x. rewrite A4, B3, concat_app, in_app_iff. simpl. rewrite app_nil_r. tauto.
          - intros x. rewrite concat_app, in_app_iff. simpl. rewrite app_nil_r. intros [Hx|Hx]; [auto|]. apply A3; assumption.
          - intros I' HI'. apply in_app_iff in HI'. destruct HI' as [HI'|[<-|[]]]; [auto|].
            exists i. split; [apply A1; left; reflexivity|]. intros x Hx. apply A3; assumption.
          - intros x y Hx Hxy. apply A4 in Hx. destruct Hx as [Hx|Hx]; [|eauto]. apply A4. left. eauto.
          - intros Hsym I' HI' x y Hx Hxy. apply in_app_iff in HI'. destruct HI' as [HI'|[<-|[]]]; [eauto|].
            pose proof (A6 x Hx y Hxy) as Hy. apply A4 in Hy. destruct Hy as [Hy|Hy]; [|assumption].
            exfalso. pose proof (B6 y x Hy (Hsym _ _ Hxy)) as Hx'. apply A3 in Hx. destruct Hx as (_ & Hw & _). congruence. }
        destruct (IH _ _ _ (fun x Hx => Hi x (or_intror Hx)) HM1) as (Is' & out' & vis' & E' & M & C & D).
        exists Is', out', vis'. split; [exact E'|]. split; [assumption|]. split.
        -- intros x Hx. apply C, A4. auto.
        -- intros x [<-|Hx]; [|auto]. apply C, A4. right. apply A1. left; reflexivity.
Qed.

Lemma merge_groups_ok : exists Is out, merge_groups g P V threads gs = Some out /\
  merged Is out (fun x => x <? length gs) /\ (forall x, In x (concat Is) <-> x < length gs).
Proof.
  unfold merge_groups. fold a ps wb. rewrite map_length.
  destruct (merge_loop_ok (seq 0 (length gs)) [] [] (fun _ => false)) as (Is & out & vis & E & M & _ & B).
  - intros x Hx. apply in_seq in Hx. lia.
  - constructor; simpl; try contradiction; try discriminate; try constructor; try discriminate; try contradiction.
  - exists Is, out. split; [exact E|].
    assert (Hin : forall x, In x (concat Is) <-> x < length gs).
    { intros x. split; [apply (m_lt _ _ _ M)|]. intros Hx. apply (m_vis _ _ _ M), B, in_seq. lia. }
    assert (Hv : forall x, vis x = (x <? length gs)).
    { intros x. destruct (Nat.ltb_spec x (length gs)) as [Hx|Hx].
      - apply B, in_seq; lia.
      - destruct (vis x) eqn:Ev; [|reflexivity]. apply (m_vis _ _ _ M), Hin in Ev. lia. }
    split; [|exact Hin]. destruct M as [B1 B2 B3 B4 B5 B6 B7]. constructor; auto.
    + intros x. rewrite <- Hv. apply B3.
    + intros x y. rewrite <- !Hv. apply B6.
Qed.
End M.
