(** Property C75: the parallel loop of the classification — races and interleavings. *)
From Coq Require Import Arith List Bool ZArith Lia Permutation.
From Verif Require Import GridModel GridSpec GridProofs GridStoreModel GridGeoModel Geo FloodModel FloodSpec FloodSets FloodFillProofs FloodMergeProofs FloodProofs FloodProps FloodThreadsModel FloodThreadsProofs.
Import ListNotations.

(** ** Specification. *)
(** The iterations 0, ..., n-1 of a parallel loop, each executed by exactly one thread, in some order. *)
Definition distributed (work : list (list nat)) (n : nat) : Prop := NoDup (concat work) /\ forall k, In k (concat work) <-> k < n.
(** Two accesses of different threads conflict if they go to the same cell of the vector of states (at least one is a write: all are). Accesses
    in the critical section do not conflict. *)
Definition conflict (a b : event) : Prop := match a, b with Mark i _, Mark j _ => i = j | _, _ => False end.
(** A data race: during an execution, two threads are about to make conflicting accesses. *)
Inductive reaches {E : Type} : list (list E) -> list (list E) -> Prop :=
| here : forall ts, reaches ts ts
| there : forall a e t b ts, reaches (a ++ t :: b) ts -> reaches (a ++ (e :: t) :: b) ts.
Definition race {E : Type} (conflict : E -> E -> Prop) (ts : list (list E)) : Prop :=
  exists now x y a b t u, reaches ts now /\ x <> y /\ nth_error now x = Some (a :: t) /\ nth_error now y = Some (b :: u) /\ conflict a b.

Lemma distributed_permutation work n : distributed work n <-> Permutation (concat work) (seq 0 n).
Proof.
  split.
  - intros [N H]. apply NoDup_Permutation; [exact N|apply seq_NoDup|]. intros k. rewrite H, in_seq. lia.
  - intros Q. split; [exact (Permutation_NoDup (Permutation_sym Q) (seq_NoDup n 0))|]. intros k. split; intros I.
    + pose proof (Permutation_in _ Q I) as J. apply in_seq in J. lia. + apply (Permutation_in _ (Permutation_sym Q)), in_seq. lia.
Qed.
Lemma reaches_length {E} (ts now : list (list E)) : reaches ts now -> length now = length ts.
Proof. induction 1 as [|a e t b ts _ IH]; [reflexivity|]. rewrite IH, !app_length. reflexivity. Qed.
Lemma reaches_suffix {E} (ts now : list (list E)) : reaches ts now -> forall x t, nth_error now x = Some t -> exists t0, nth_error ts x = Some t0 /\ incl t t0.
Proof.
  induction 1 as [ts|a e t b ts _ IH]; intros x u E0; [exists u; split; [exact E0|apply incl_refl]|]. destruct (IH x u E0) as (t0 & N & I).
  destruct (Nat.lt_trichotomy x (length a)) as [L|[->|L]].
  - rewrite nth_error_app1 in N by exact L. exists t0. rewrite nth_error_app1 by exact L. split; assumption.
  - rewrite nth_error_app2, Nat.sub_diag in N by reflexivity. injection N as <-. exists (e :: t). rewrite nth_error_app2, Nat.sub_diag by reflexivity. split; [reflexivity|]. apply incl_tl, I.
  - rewrite nth_error_app2 in N by lia. exists t0. rewrite nth_error_app2 by lia. destruct (x - length a) as [|m] eqn:M; [lia|]. split; assumption.
Qed.

Section Traces.
Variables (g : grid) (T : nat -> bool) (P : nat -> dir -> bool) (V : nat -> nat -> dir -> bool) (threads : nat).
Hypothesis Hg : grid_ok g.
Hypothesis Ht : 0 < threads.
Let ps := partitions g threads.
Let acc := accesses g T P V ps.
Lemma all_ok : forall p, In p ps -> part_ok g p. Proof. intros p I. apply In_nth_error in I. destruct I as [k E]. exact (partitions_ok g threads k p Hg E). Qed.
Lemma all_disjoint k k' p p' j : nth_error ps k = Some p -> nth_error ps k' = Some p' -> inslab g p j -> inslab g p' j -> k = k'.
Proof.
  intros E E' [L I] [_ I']. destruct (partitions_cover g threads (mat_of g j) Hg Ht (mat_of_in_grid g j Hg L)) as (k0 & p0 & _ & _ & U). rewrite (U k p E I), (U k' p' E' I'). reflexivity.
Qed.
Lemma fill_all_trace : fill_all g T P V threads = Some (marks (fun _ => Outside) (concat (map acc (seq 0 (length ps)))), pushes (concat (map acc (seq 0 (length ps))))) /\
  forall k p, nth_error ps k = Some p -> exists w, t_cells g T P V p k (slab_cells g p) (fun _ => false) = Some (w, acc k).
Proof.
  destruct (fill_all_ok g T P V Hg threads Ht) as (st & GS & F & _). pose proof F as F'. unfold fill_all in F'. destruct (slabs_trace g T P V Hg ps all_ok ps 0 _ _ _ (fun k p H => H) F') as [R H]. rewrite F. split; [f_equal; exact R|exact H].
Qed.
Lemma threads_trace work : distributed work (length ps) -> all_threads g T P V ps work = Some (map (fun ks => concat (map acc ks)) work).
Proof. intros [N H]. apply (all_trace g T P V Hg ps all_ok all_disjoint (proj2 fill_all_trace) work N). intros k I. apply H, I. Qed.
Lemma marked k i v : In (Mark i v) (acc k) -> v = Trimmed /\ exists p, nth_error ps k = Some p /\ inslab g p i.
Proof. apply (accesses_in g T P V Hg ps all_ok (proj2 fill_all_trace)). Qed.
Lemma owner work x ts t a : distributed work (length ps) -> all_threads g T P V ps work = Some ts -> nth_error ts x = Some t -> In a t ->
  exists ks k, nth_error work x = Some ks /\ In k ks /\ In a (acc k).
Proof.
  intros D E N I. rewrite (threads_trace work D) in E. injection E as <-. rewrite nth_error_map in N. destruct (nth_error work x) as [ks|]; [|discriminate N]. injection N as <-. apply in_concat in I. destruct I as (l & Il & Ia). apply in_map_iff in Il. destruct Il as (k & <- & Ik).
  exists ks, k. split; [reflexivity|]. split; assumption.
Qed.
Lemma once (work : list (list nat)) : NoDup (concat work) -> forall x y a b k, nth_error work x = Some a -> nth_error work y = Some b -> In k a -> In k b -> x = y.
Proof.
  induction work as [|c work IH]; intros N x y a b k Ex Ey Ia Ib; [destruct x; discriminate Ex|]. cbn in N. apply NoDup_app_iff in N. destruct N as (_ & N & D).
  destruct x as [|x], y as [|y]; cbn in Ex, Ey; [reflexivity| | |f_equal; exact (IH N x y a b k Ex Ey Ia Ib)]; exfalso.
  - injection Ex as ->. apply (D k Ia), in_concat. exists b. split; [exact (nth_error_In _ _ Ey)|exact Ib].
  - injection Ey as ->. apply (D k Ib), in_concat. exists a. split; [exact (nth_error_In _ _ Ex)|exact Ia].
Qed.
End Traces.

(** ** Every thread finishes, and whatever the loop iterations each thread gets, no execution of the loop has a data race. *)
Theorem C75_no_race : forall g T P V threads work, grid_ok g -> 0 < threads -> distributed work (length (partitions g threads)) ->
  exists ts, all_threads g T P V (partitions g threads) work = Some ts /\ length ts = length work /\ ~ race conflict ts.
Proof.
  intros g T P V threads work Hg Ht D. exists (map (fun ks => concat (map (accesses g T P V (partitions g threads)) ks)) work). split; [apply threads_trace; assumption|]. split; [apply map_length|].
  intros (now & x & y & a & b & t & u & R & Ne & Ex & Ey & C). destruct (reaches_suffix _ _ R x _ Ex) as (t0 & Ex0 & Ix). destruct (reaches_suffix _ _ R y _ Ey) as (u0 & Ey0 & Iy).
  destruct (owner g T P V threads Hg Ht work x _ t0 a D (threads_trace g T P V threads Hg Ht work D) Ex0 (Ix a (or_introl eq_refl))) as (ks & k & Wx & Ik & Ia).
  destruct (owner g T P V threads Hg Ht work y _ u0 b D (threads_trace g T P V threads Hg Ht work D) Ey0 (Iy b (or_introl eq_refl))) as (ks' & k' & Wy & Ik' & Ib).
  destruct a as [i v|gr], b as [j w|gr']; try contradiction. cbn in C. subst j. destruct (marked g T P V threads Hg Ht k i v Ia) as (_ & p & E & I). destruct (marked g T P V threads Hg Ht k' i w Ib) as (_ & p' & E' & I').
  pose proof (all_disjoint g threads Hg Ht k k' p p' i E E' I I'). subst k'. exact (Ne (once work (proj1 D) x y ks ks' k Wx Wy Ik Ik')).
Qed.
(** ** A thread writes only states of cells in its own partitions. *)
Theorem C75_own_cells : forall g T P V threads work ts x t i v, grid_ok g -> 0 < threads -> distributed work (length (partitions g threads)) ->
  all_threads g T P V (partitions g threads) work = Some ts -> nth_error ts x = Some t -> In (Mark i v) t ->
  i < num_elements g /\ exists ks k p, nth_error work x = Some ks /\ In k ks /\ nth_error (partitions g threads) k = Some p /\ in_box p (mat_of g i).
Proof.
  intros g T P V threads work ts x t i v Hg Ht D E N I. destruct (owner g T P V threads Hg Ht work x ts t _ D E N I) as (ks & k & W & Ik & Ia). destruct (marked g T P V threads Hg Ht k i v Ia) as (_ & p & Ep & L & B). split; [exact L|]. exists ks, k, p. split; [exact W|]. split; [exact Ik|]. split; [exact Ep|exact B].
Qed.
(** ** Every interleaving gives what a schedule of whole partitions gives. *)
Lemma fold_upd_ext l s : forall st st' : nat -> istate, (forall i, st i = st' i) -> forall i, fold_left (fun st i => upd st i s) l st i = fold_left (fun st i => upd st i s) l st' i.
Proof. induction l as [|j l IH]; intros st st' H i; [apply H|]. cbn. apply IH. intros k. unfold upd. destruct (k =? j); [reflexivity|apply H]. Qed.
Lemma mark_states_ext gs : forall st st', (forall i, st i = st' i) -> forall i, mark_states st gs i = mark_states st' gs i.
Proof. induction gs as [|gr gs IH]; intros st st' H i; [apply H|]. cbn. apply IH. intros j. apply fold_upd_ext, H. Qed.
Lemma classified_rel g T P V threads res : grid_ok g -> 0 < threads -> classified g T P V threads res ->
  exists st st', res = Some st /\ classify_rel g T P V threads (Some st') /\ forall i, st i = st' i.
Proof.
  intros Hg Ht C. destruct C as [work ts es Q E L]. assert (D : distributed work (length (partitions g threads))) by (apply distributed_permutation, Q). rewrite (threads_trace g T P V threads Hg Ht work D) in E. injection E as <-.
  set (acc := accesses g T P V (partitions g threads)) in *. pose proof (fill_all_trace g T P V threads Hg Ht) as [F _]. fold acc in F. set (all := concat (map acc (seq 0 (length (partitions g threads))))) in *.
  assert (A : Permutation es all). { refine (Permutation_trans (interleaving_permutation _ _ L) _). unfold all. rewrite <- !flat_map_concat_map. refine (Permutation_trans _ (Permutation_flat_map acc Q)). clear. induction work as [|ks work IH]; [constructor|]. cbn. rewrite flat_map_app, <- flat_map_concat_map. apply Permutation_app_head, IH. }
  assert (M : forall i v, In (Mark i v) all -> v = Trimmed). { intros i v I. unfold all in I. apply in_concat in I. destruct I as (l & Il & I). apply in_map_iff in Il. destruct Il as (k & <- & _). exact (proj1 (marked g T P V threads Hg Ht k i v I)). }
  assert (R : classify_rel g T P V threads (finish g P V threads (marks (fun _ => Outside) all) (pushes es))). { unfold classify_rel. rewrite F. exists (pushes es). split; [apply Permutation_sym, pushes_permutation, A|reflexivity]. }
  destruct (classify_trimmed g T P V threads _ Hg Ht R) as (st' & E' & _). rewrite E' in R. unfold finish in *. destruct (merge_groups g P V threads (pushes es)) as [m|]; [|discriminate E']. injection E' as <-.
  eexists; eexists. split; [reflexivity|]. split; [exact R|]. apply mark_states_ext. intros i. symmetry. apply marks_permutation; [exact M|exact (Permutation_sym A)].
Qed.
Theorem C75_interleaving : forall g T P V threads res, grid_ok g -> 0 < threads -> classified g T P V threads res ->
  exists st st', res = Some st /\ classify_rel g T P V threads (Some st') /\ forall i, st i = st' i.
Proof. exact classified_rel. Qed.
(** ** In every interleaving exactly the cut cells are trimmed; with consistent face tests the result is the same for all numbers of threads,
    all distributions of the iterations and all interleavings, and cells of one region get one state. *)
Theorem C75_trimmed : forall g T P V threads res, grid_ok g -> 0 < threads -> classified g T P V threads res ->
  exists st, res = Some st /\ forall i, i < num_elements g -> (st i = Trimmed <-> T i = true).
Proof.
  intros g T P V threads res Hg Ht C. destruct (classified_rel _ _ _ _ _ _ Hg Ht C) as (st & st' & -> & R & S). destruct (classify_trimmed g T P V threads _ Hg Ht R) as (st2 & E & H). injection E as <-. exists st. split; [reflexivity|]. intros i L. rewrite (S i). apply H, L.
Qed.
Theorem C75_same_result : forall g T P V t t' res res', grid_ok g -> symmetric_faces g T P -> 0 < t -> 0 < t' -> classified g T P V t res -> classified g T P V t' res' ->
  exists st st', res = Some st /\ res' = Some st' /\ forall i, i < num_elements g -> st i = st' i.
Proof.
  intros g T P V t t' res res' Hg Hs Ht Ht' C C'. destruct (classified_rel _ _ _ _ _ _ Hg Ht C) as (st & s1 & -> & R & S). destruct (classified_rel _ _ _ _ _ _ Hg Ht' C') as (st' & s2 & -> & R' & S').
  destruct (classify_threads g T P V t t' _ _ Hg Hs Ht Ht' R R') as (u & u' & E & E' & H). injection E as <-. injection E' as <-. exists st, st'. split; [reflexivity|]. split; [reflexivity|]. intros i L. rewrite (S i), (S' i). apply H, L.
Qed.
Theorem C75_connected : forall g T P V threads st, grid_ok g -> 0 < threads -> symmetric_faces g T P -> classified g T P V threads (Some st) ->
  forall i j, i < num_elements g -> T i = false -> connected g T P i j -> st i = st j.
Proof.
  intros g T P V threads st Hg Ht Hs C i j L Ti Cn. destruct (classified_rel _ _ _ _ _ _ Hg Ht C) as (s & st' & E & R & S). injection E as <-. rewrite (S i), (S j). exact (classify_connected g T P V threads st' Hg Ht Hs R i j L Ti Cn).
Qed.
(** ** Every distribution of the iterations has executions, and every execution that starts can be continued to the end. *)
Theorem C75_executes : forall g T P V threads work, grid_ok g -> 0 < threads -> distributed work (length (partitions g threads)) ->
  exists ts es, all_threads g T P V (partitions g threads) work = Some ts /\ interleaving ts es /\ classified g T P V threads (finish g P V threads (marks (fun _ => Outside) es) (pushes es)).
Proof.
  intros g T P V threads work Hg Ht D. pose proof (threads_trace g T P V threads Hg Ht work D) as E. eexists; eexists. split; [exact E|]. split; [apply interleaving_sequential|]. apply (classified_by g T P V threads work _ _ (proj1 (distributed_permutation _ _) D) E). apply interleaving_sequential.
Qed.
(** ** The region before the loop that counts the threads: with two threads or more there is a data race on the counter, although every order of
    the writes leaves the number of threads in it. *)
Theorem C75_count_race_refuted : forall n, 2 <= n -> race (fun _ _ : nat => True) (count_threads n).
Proof.
  intros n L. exists (count_threads n), 0, 1, n, n, [], []. split; [constructor|]. split; [discriminate|]. unfold count_threads. destruct n as [|[|n]]; [lia|lia|]. cbn. split; [reflexivity|]. split; [reflexivity|exact I].
Qed.
Theorem C75_count : forall n es, 0 < n -> interleaving (count_threads n) es -> counted es = n.
Proof.
  intros n es L H. pose proof (interleaving_permutation _ _ H) as Q. assert (A : forall x, In x es -> x = n). { intros x I. apply (Permutation_in _ Q) in I. apply in_concat in I. destruct I as (l & Il & I). apply repeat_spec in Il. subst l. destruct I as [<-|[]]. reflexivity. }
  unfold counted. destruct es as [|e es]; [|apply A; destruct (exists_last (l := e :: es)) as (b & z & ->); [discriminate|]; rewrite last_last; apply in_or_app; right; left; reflexivity].
  exfalso. apply Permutation_length in Q. destruct n; [lia|]. cbn in Q. discriminate Q.
Qed.
Print Assumptions C75_no_race. Print Assumptions C75_own_cells. Print Assumptions C75_interleaving. Print Assumptions C75_trimmed. Print Assumptions C75_same_result. Print Assumptions C75_connected. Print Assumptions C75_executes. Print Assumptions C75_count_race_refuted. Print Assumptions C75_count.

(** ** Concrete executions: a wall of cut cells in a grid of 4 x 3 cells, three threads; the second thread gets two partitions, the third none. *)
Definition g0 := Grid 4 3 1.
Definition T0 i := existsb (Nat.eqb i) [1; 5; 9].
Definition P0 i (d : dir) := T0 i.
Definition V0 i j (d : dir) := (i <? j)%nat.
Example C75_example_hypotheses : grid_ok g0 /\ length (partitions g0 3) = 2 /\ distributed [[1]; []; [0]] (length (partitions g0 3)) /\ distributed [[]; [1; 0]; []] (length (partitions g0 3)) /\ symmetric_faces g0 T0 P0.
Proof.
  split; [repeat constructor|]. split; [reflexivity|]. split; [apply distributed_permutation; cbn; apply perm_swap|]. split; [apply distributed_permutation; cbn; apply perm_swap|]. intros i j d _ Ti Tj. unfold P0. rewrite Ti, Tj. reflexivity.
Qed.
Example C75_example_accesses : option_map (map (map (fun e => match e with Mark i v => (i, []) | Push gr => (g_part gr, g_set gr) end))) (all_threads g0 T0 P0 V0 (partitions g0 3) [[1]; []; [0]]) =
  Some [[(1, [2; 3; 6; 7; 10; 11])]; []; [(0, [0; 4; 8]); (1, []); (5, []); (9, [])]].
Proof. vm_compute. reflexivity. Qed.
Example C75_example_interleaved : exists ts es, all_threads g0 T0 P0 V0 (partitions g0 3) [[1]; []; [0]] = Some ts /\ interleaving ts es /\ es <> concat ts /\ es <> concat (rev ts) /\
  option_map (fun st => map st (seq 0 12)) (finish g0 P0 V0 3 (marks (fun _ => Outside) es) (pushes es)) = Some [Inside; Trimmed; Outside; Outside; Inside; Trimmed; Outside; Outside; Inside; Trimmed; Outside; Outside].
Proof.
  destruct (all_threads g0 T0 P0 V0 (partitions g0 3) [[1]; []; [0]]) as [ts|] eqn:E; [|vm_compute in E; discriminate E]. vm_compute in E. injection E as <-. eexists; eexists. split; [reflexivity|].
  split. { apply (one_step [_; []]). apply (one_step []). apply (one_step [[]; []]). apply (one_step [[]; []]). apply (one_step [[]; []]). apply all_done. intros t [<-|[<-|[<-|[]]]]; reflexivity. }
  split; [discriminate|]. split; [discriminate|]. vm_compute. reflexivity.
Qed.
Example C75_example_count : interleaving (count_threads 3) [3; 3; 3]. Proof. apply (one_step []), (one_step [[]]), (one_step [[]; []]), all_done. intros t [<-|[<-|[<-|[]]]]; reflexivity. Qed.
