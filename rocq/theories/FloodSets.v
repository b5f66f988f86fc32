(** Sorted-list sets, sums and the slabs. *)
From Coq Require Import Arith List Bool ZArith Lia Permutation Sorted.
From Verif Require Import GridModel GridSpec GridProofs GridStoreModel GridGeoModel Geo FloodModel FloodSpec.
Import ListNotations.

Notation ssorted := (StronglySorted lt).

Lemma set_insert_In x y l : In y (set_insert x l) <-> y = x \/ In y l.
Proof.
  induction l as [|z l IH]; simpl; [intuition|].
  destruct (Nat.ltb_spec x z); [simpl; intuition|].
  destruct (Nat.eqb_spec x z); [subst; simpl; intuition|].
  simpl. rewrite IH. intuition.
Qed.
Lemma set_insert_sorted x l : ssorted l -> ssorted (set_insert x l).
Proof.
  induction 1 as [|z l Hs IH Hf]; simpl; [repeat constructor|].
  destruct (Nat.ltb_spec x z).
  - constructor; [constructor; assumption|]. constructor; [assumption|].
    eapply Forall_impl; [|exact Hf]. intros; lia.
  - destruct (Nat.eqb_spec x z); [constructor; assumption|].
    constructor; [assumption|]. rewrite Forall_forall in *. intros y Hy.
    rewrite set_insert_In in Hy. destruct Hy as [->|Hy]; [lia | auto].
Qed.
Lemma ssorted_NoDup l : ssorted l -> NoDup l.
Proof.
  induction 1 as [|z l Hs IH Hf]; constructor; [|assumption].
  rewrite Forall_forall in Hf. intros Hin. specialize (Hf z Hin). lia.
Qed.
Lemma set_union_In l new y : In y (set_union l new) <-> In y l \/ In y new.
Proof.
  unfold set_union. revert l. induction new as [|x new IH]; intros l; simpl; [intuition|].
  rewrite IH, set_insert_In. intuition.
Qed.
Lemma set_union_sorted l new : ssorted l -> ssorted (set_union l new).
Proof.
  unfold set_union. revert l. induction new as [|x new IH]; intros l H; simpl; [assumption|].
  apply IH, set_insert_sorted, H.
Qed.
Lemma set_mem_In x l : set_mem x l = true <-> In x l.
Proof.
  unfold set_mem. rewrite existsb_exists. split.
  - intros (y & Hy & E). apply Nat.eqb_eq in E. subst; assumption.
  - intros H. exists x. rewrite Nat.eqb_refl. auto.
Qed.

Lemma zsum_app f l l' : (zsum f (l ++ l') = zsum f l + zsum f l')%Z.
Proof. induction l as [|x l IH]; simpl; [reflexivity|]. rewrite IH. lia. Qed.
Lemma zsum_perm f l l' : Permutation l l' -> zsum f l = zsum f l'.
Proof. induction 1; simpl; lia. Qed.
Lemma zsum_rev f l : zsum f (rev l) = zsum f l.
Proof. apply zsum_perm, Permutation_sym, Permutation_rev. Qed.
Lemma zsum_ext f f' l : (forall x, In x l -> f x = f' x) -> zsum f l = zsum f' l.
Proof.
  induction l as [|x l IH]; simpl; intros H; [reflexivity|].
  rewrite (H x) by auto. rewrite IH by auto. reflexivity.
Qed.
Lemma zsum_plus f f' l : (zsum (fun x => f x + f' x) l = zsum f l + zsum f' l)%Z.
Proof. induction l as [|x l IH]; simpl; lia. Qed.
Lemma fold_left_zsum f l acc : (fold_left (fun a i => a + f i) l acc = acc + zsum f l)%Z.
Proof. revert acc. induction l as [|x l IH]; intros acc; simpl; [lia|]. rewrite IH. lia. Qed.

Lemma upd_same {B} (f : nat -> B) i v : upd f i v i = v.
Proof. unfold upd. rewrite Nat.eqb_refl. reflexivity. Qed.
Lemma upd_other {B} (f : nat -> B) i v j : j <> i -> upd f i v j = f j.
Proof. intros H. unfold upd. destruct (Nat.eqb_spec j i); [contradiction|reflexivity]. Qed.
Lemma upd_true (f : nat -> bool) i j : upd f i true j = true <-> j = i \/ f j = true.
Proof.
  unfold upd. destruct (Nat.eqb_spec j i); subst; [intuition|]. intuition.
Qed.

Lemma NoDup_app_iff {B} (l l' : list B) : NoDup (l ++ l') <-> NoDup l /\ NoDup l' /\ (forall x, In x l -> ~ In x l').
Proof.
  induction l as [|x l IH]; simpl.
  - split; [intros H; repeat split; [constructor|assumption|auto] | tauto].
  - rewrite !NoDup_cons_iff, IH, in_app_iff. split.
    + intros (H1 & H2 & H3 & H4). repeat split; try tauto. intros y [<-|Hy]; [tauto | auto].
    + intros ((H1 & H2) & H3 & H4). repeat split; try tauto.
      * intros [H|H]; [tauto|]. exact (H4 x (or_introl eq_refl) H).
      * intros y Hy. apply H4. auto.
Qed.

(** ** slabs: C10 *)
Definition slab (g : grid) (sz i : nat) : part :=
  let a := part_axis g in
  Part (set_axis a (pfirst (global_part g)) (sz * i))
       (set_axis a (psecond (global_part g)) (Nat.min (sz * (i + 1)) (n_at a g) - 1)).

Lemma flat_map_if {B} (f : nat -> bool) (h : nat -> B) l :
  flat_map (fun i => if f i then [h i] else []) l = map h (List.filter f l).
Proof. induction l as [|x l IH]; simpl; [reflexivity|]. destruct (f x); simpl; rewrite IH; reflexivity. Qed.

Lemma filter_prefix n sz t : 0 < sz -> exists m, m <= t /\ List.filter (fun i => sz * i <? n) (seq 0 t) = seq 0 m /\
  (forall i, i < m -> sz * i < n) /\ (m < t -> n <= sz * m).
Proof.
  intros Hsz. induction t as [|t (m & Hm & E & H1 & H2)].
  - exists 0. simpl. repeat split; lia.
  - rewrite seq_S, filter_app. simpl. destruct (Nat.ltb_spec (sz * t) n) as [Hlt|Hge].
    + exists (S t). assert (m = t).
      { destruct (Nat.eq_dec m t); [assumption|]. assert (n <= sz * m) by (apply H2; lia).
        assert (sz * m <= sz * t) by (apply Nat.mul_le_mono_l; assumption). lia. }
      subst m. rewrite E, seq_S. simpl. repeat split; try lia.
      intros i Hi. assert (sz * i <= sz * t) by (apply Nat.mul_le_mono_l; lia). lia.
    + exists m. rewrite E, app_nil_r. repeat split; try lia; [assumption|].
      intros _. destruct (Nat.eq_dec m t) as [->|]; [assumption|]. apply H2. lia.
Qed.

Lemma part_size_pos n t : 0 < part_size n t.
Proof. unfold part_size. lia. Qed.
Lemma part_size_cover n t : 0 < t -> n <= part_size n t * t.
Proof.
  intros Ht. unfold part_size.
  assert (n <= (n + t - 1) / t * t).
  { pose proof (Nat.div_mod (n + t - 1) t ltac:(lia)) as E.
    pose proof (Nat.mod_upper_bound (n + t - 1) t ltac:(lia)). nia. }
  nia.
Qed.

Lemma partitions_eq g t : exists m, m <= t /\
  partitions g t = map (slab g (part_size (n_at (part_axis g) g) t)) (seq 0 m) /\
  (forall i, i < m -> part_size (n_at (part_axis g) g) t * i < n_at (part_axis g) g) /\
  (m < t -> n_at (part_axis g) g <= part_size (n_at (part_axis g) g) t * m).
Proof.
  destruct (filter_prefix (n_at (part_axis g) g) (part_size (n_at (part_axis g) g) t) t (part_size_pos _ _))
    as (m & Hm & E & H1 & H2).
  exists m. repeat split; [assumption| | assumption | assumption].
  unfold partitions. cbv zeta.
  rewrite (flat_map_if (fun i => part_size (n_at (part_axis g) g) t * i <? n_at (part_axis g) g)
             (slab g (part_size (n_at (part_axis g) g) t))).
  rewrite E. reflexivity.
Qed.

Lemma slab_in_box g sz i c : grid_ok g -> 0 < sz -> sz * i < n_at (part_axis g) g ->
  (in_box (slab g sz i) c <-> in_grid g c /\ sz * i <= c_at (part_axis g) c < sz * (i + 1)).
Proof.
  intros (H1 & H2 & H3) Hsz Hi. unfold slab, in_box, in_grid, global_part in *.
  destruct (part_axis g); cbn [set_axis pfirst psecond cx cy cz n_at c_at] in *; lia.
Qed.

Lemma slab_ok g sz i : grid_ok g -> 0 < sz -> sz * i < n_at (part_axis g) g -> part_ok g (slab g sz i).
Proof.
  intros (H1 & H2 & H3) Hsz Hi. unfold slab, part_ok, in_grid, global_part in *.
  destruct (part_axis g); cbn [set_axis pfirst psecond cx cy cz n_at c_at] in *; lia.
Qed.

Lemma partitions_ok g t k p : grid_ok g -> nth_error (partitions g t) k = Some p -> part_ok g p.
Proof.
  intros Hg H. destruct (partitions_eq g t) as (m & Hm & E & H1 & H2). rewrite E in H.
  rewrite nth_error_map in H. destruct (nth_error (seq 0 m) k) as [i|] eqn:Ei; simpl in H; [|discriminate].
  injection H as <-. apply slab_ok; [assumption | apply part_size_pos |].
  apply H1. apply nth_error_In in Ei. rewrite in_seq in Ei. lia.
Qed.

Lemma nth_error_seq0 m k : k < m -> nth_error (seq 0 m) k = Some k.
Proof.
  intros H. rewrite (nth_error_nth' _ 0) by (rewrite seq_length; assumption).
  rewrite seq_nth by assumption. reflexivity.
Qed.

Lemma partitions_nth g t k p : nth_error (partitions g t) k = Some p ->
  p = slab g (part_size (n_at (part_axis g) g) t) k /\
  part_size (n_at (part_axis g) g) t * k < n_at (part_axis g) g.
Proof.
  destruct (partitions_eq g t) as (m & Hm & E & H1 & H2). rewrite E, nth_error_map.
  destruct (lt_dec k m) as [Hk|Hk].
  - rewrite nth_error_seq0 by assumption. simpl. intros H; injection H as <-. auto.
  - rewrite (proj2 (nth_error_None (seq 0 m) k)) by (rewrite seq_length; lia). discriminate.
Qed.

Lemma partitions_cover g t c : grid_ok g -> 0 < t -> in_grid g c ->
  exists k p, nth_error (partitions g t) k = Some p /\ in_box p c /\
              (forall k' p', nth_error (partitions g t) k' = Some p' -> in_box p' c -> k' = k).
Proof.
  intros Hg Ht Hc. destruct (partitions_eq g t) as (m & Hm & E & H1 & H2).
  set (a := part_axis g) in *. set (n := n_at a g) in *. set (sz := part_size n t) in *.
  assert (Hsz : 0 < sz) by apply part_size_pos.
  assert (Hx : c_at a c < n) by (destruct Hc as (?&?&?); unfold n; destruct a; simpl; assumption).
  set (k := c_at a c / sz).
  assert (Hk : sz * k <= c_at a c < sz * (k + 1)).
  { unfold k. pose proof (Nat.div_mod (c_at a c) sz ltac:(lia)). pose proof (Nat.mod_upper_bound (c_at a c) sz ltac:(lia)). nia. }
  assert (Hcov : n <= sz * t) by (apply part_size_cover; assumption).
  assert (Hkm : k < m).
  { destruct (lt_dec k m); [assumption|exfalso].
    destruct (Nat.eq_dec m t) as [Emt|Emt].
    - assert (sz * t <= sz * k) by (apply Nat.mul_le_mono_l; lia). lia.
    - assert (n <= sz * m) by (apply H2; lia). assert (sz * m <= sz * k) by (apply Nat.mul_le_mono_l; lia). lia. }
  exists k, (slab g sz k). split; [|split].
  - rewrite E, nth_error_map, nth_error_seq0 by assumption. reflexivity.
  - apply slab_in_box; auto.
  - intros k' p' Hn Hb. apply partitions_nth in Hn. fold a n sz in Hn. destruct Hn as [-> Hn].
    apply slab_in_box in Hb; [|assumption|assumption|assumption]. destruct Hb as [_ Hb]. fold a in Hb.
    assert (k' < k + 1) by (apply (Nat.mul_lt_mono_pos_l sz); lia).
    assert (k < k' + 1) by (apply (Nat.mul_lt_mono_pos_l sz); lia). lia.
Qed.
