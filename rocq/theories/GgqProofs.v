(** Distribution of the GGQ points: proofs. *)
From Coq Require Import Arith Reals List Lra Lia Permutation.
From Verif Require Import Geo GridModel GridSpec GridProofs GridGeoModel GridGeoSpec GridGeoProofs BoxSpec BoxProofs GgqModel.
Import ListNotations.
Local Open Scope R_scope.

(** ** lists *)
Lemma flat_map_perm {A B} (f : A -> list B) l l' : Permutation l l' -> Permutation (flat_map f l) (flat_map f l').
Proof. intros H. apply Permutation_flat_map. assumption. Qed.
Lemma flat_map_ext_perm {A B} (f h : A -> list B) l : (forall x, In x l -> Permutation (f x) (h x)) -> Permutation (flat_map f l) (flat_map h l).
Proof.
  induction l as [|x l IH]; intros H; simpl; [reflexivity|]. apply Permutation_app; [apply H; left; reflexivity|].
  apply IH. intros y Hy. apply H. right; assumption.
Qed.
Lemma flat_map_app_perm {A B} (f h : A -> list B) l :
  Permutation (flat_map (fun x => f x ++ h x) l) (flat_map f l ++ flat_map h l).
Proof.
  induction l as [|x l IH]; simpl; [reflexivity|]. rewrite IH. rewrite <- !app_assoc. apply Permutation_app_head.
  rewrite !app_assoc. apply Permutation_app_tail. apply Permutation_app_comm.
Qed.
Lemma flat_map_swap {A B C} (f : A -> B -> list C) la lb :
  Permutation (flat_map (fun a => flat_map (fun b => f a b) lb) la) (flat_map (fun b => flat_map (fun a => f a b) la) lb).
Proof.
  induction la as [|a la IH]; simpl.
  - induction lb; simpl; auto.
  - rewrite IH. symmetry. apply (flat_map_app_perm (fun b => f a b) (fun b => flat_map (fun a => f a b) la)).
Qed.
Lemma flat_map_flat_map {A B C} (f : B -> list C) (h : A -> list B) l :
  flat_map f (flat_map h l) = flat_map (fun x => flat_map f (h x)) l.
Proof. induction l; simpl; [reflexivity|]. rewrite flat_map_app, IHl. reflexivity. Qed.
Lemma flat_map_map {A B C} (f : B -> list C) (h : A -> B) l : flat_map f (map h l) = flat_map (fun x => f (h x)) l.
Proof. induction l; simpl; [reflexivity|]. rewrite IHl. reflexivity. Qed.
Lemma map_flat_map {A B C} (f : B -> C) (h : A -> list B) l : map f (flat_map h l) = flat_map (fun x => map f (h x)) l.
Proof. induction l; simpl; [reflexivity|]. rewrite map_app, IHl. reflexivity. Qed.

Lemma tensor_perm u u' v v' w w' : Permutation u u' -> Permutation v v' -> Permutation w w' ->
  Permutation (tensor u v w) (tensor u' v' w').
Proof.
  intros Hu Hv Hw. unfold tensor. rewrite (flat_map_perm _ _ _ Hu). apply flat_map_ext_perm. intros a _.
  rewrite (flat_map_perm _ _ _ Hv). apply flat_map_ext_perm. intros b _. apply Permutation_map. assumption.
Qed.

(** a tensor product of unions is the union of the tensor products *)
Lemma tensor_flat_map {X Y Z} (u : X -> rule) (v : Y -> rule) (w : Z -> rule) lx ly lz :
  Permutation (flat_map (fun x => flat_map (fun y => flat_map (fun z => tensor (u x) (v y) (w z)) lz) ly) lx)
              (tensor (flat_map u lx) (flat_map v ly) (flat_map w lz)).
Proof.
  unfold tensor. rewrite flat_map_flat_map. apply flat_map_ext_perm. intros x _.
  (* fixed x *)
  transitivity (flat_map (fun y => flat_map (fun a => flat_map (fun z => flat_map (fun b => map (fun c => IP (Pt (fst a) (fst b) (fst c)) (snd a * snd b * snd c)) (w z)) (v y)) lz) (u x)) ly).
  { apply flat_map_ext_perm. intros y _. apply (flat_map_swap (fun z a => flat_map (fun b => map (fun c => IP (Pt (fst a) (fst b) (fst c)) (snd a * snd b * snd c)) (w z)) (v y))). }
  rewrite (flat_map_swap (fun y a => flat_map (fun z => flat_map (fun b => map (fun c => IP (Pt (fst a) (fst b) (fst c)) (snd a * snd b * snd c)) (w z)) (v y)) lz)).
  apply flat_map_ext_perm. intros a _. rewrite flat_map_flat_map. apply flat_map_ext_perm. intros y _.
  rewrite (flat_map_swap (fun z b => map (fun c => IP (Pt (fst a) (fst b) (fst c)) (snd a * snd b * snd c)) (w z))).
  apply flat_map_ext_perm. intros b _. rewrite map_flat_map. reflexivity.
Qed.

(** ** one direction *)
Section OneD.
Variables L d : R.          (* first cell boundary of the grid, cell size *)
Variables lo s : nat.       (* first cell of the box, number of cells *)

Let cl (k : nat) := L + d * INR k.
Let cu (k : nat) := L + d * (1 + INR k).
Let bl := cl lo.
Let bu := L + d * INR (lo + s).

Definition position (q : R * R) : R := bl + (bu - bl) * fst q.

Lemma cell_search q : bl - eps3 <= q -> q < bu - eps3 ->
  exists k, (lo <= k < lo + s)%nat /\ cl k - eps3 <= q < cu k - eps3.
Proof.
  unfold bu, bl, cl, cu. induction s as [|n IH].
  - rewrite Nat.add_0_r. intros. lra.
  - intros H1 H2. destruct (Rlt_le_dec q (L + d * INR (lo + n) - eps3)) as [H|H].
    + destruct IH as (k & Hk & E); try assumption. exists k. split; [lia|assumption].
    + exists (lo + n)%nat. split; [lia|]. split; [assumption|].
      replace (lo + S n)%nat with (S (lo + n)) in H2 by lia. rewrite S_INR in H2. lra.
Qed.
Lemma cell_unique q k k' : cl k - eps3 <= q < cu k - eps3 -> cl k' - eps3 <= q < cu k' - eps3 -> k = k'.
Proof.
  unfold cl, cu. intros H H'.
  assert (forall a b : nat, L + d * INR a < L + d * (1 + INR b) -> (a <= b)%nat).
  { intros a b Hab. assert (INR a < 1 + INR b) by nra. rewrite Rplus_comm, <- S_INR in H0. apply INR_lt in H0. lia. }
  assert ((k <= k')%nat) by (apply H0; lra). assert ((k' <= k)%nat) by (apply H0; lra). lia.
Qed.

(** the element of the box that receives the point, and the (snapped) point *)
Lemma place_once q : bl - eps3 <= position q < bu - eps3 ->
  exists k x, (lo <= k < lo + s)%nat /\ place (cl k) (cu k) bl bu q = [(x, Rabs (bu - bl) * snd q)] /\
    Rabs (x - position q) <= eps2 /\ cl k + 2 * eps3 <= x /\ (d > 3 * eps3 -> x < cu k - eps3) /\
    (forall k', k' <> k -> place (cl k') (cu k') bl bu q = []).
Proof.
  intros (H1 & H2). destruct (cell_search _ H1 H2) as (k & Hk & Hp).
  assert (E : eps2 = 100 * eps3) by (unfold eps2, eps3; field).
  assert (P : 0 < eps3) by (unfold eps3; apply Rinv_0_lt_compat, pow_lt; lra).
  assert (Eu : cu k = cl k + d) by (unfold cu, cl; ring).
  assert (Hno : forall k', k' <> k -> place (cl k') (cu k') bl bu q = []).
  { intros k' Hne. unfold place. fold (position q).
    destruct (Rle_dec (cl k' - eps3) (position q)); [|reflexivity].
    destruct (Rlt_dec (position q) (cu k' - eps3)); [|reflexivity].
    exfalso. apply Hne. apply (cell_unique (position q)); lra. }
  exists k. unfold place at 1. fold (position q).
  destruct (Rle_dec (cl k - eps3) (position q)); [|lra].
  destruct (Rlt_dec (position q) (cu k - eps3)); [|lra].
  destruct (Rlt_dec (position q) (cl k + eps2)).
  - exists (cl k + 2 * eps3). split; [assumption|]. split; [reflexivity|]. split; [apply Rabs_le; lra|].
    split; [lra|]. split; [lra|assumption].
  - exists (position q). split; [assumption|]. split; [reflexivity|]. split; [apply Rabs_le; lra|].
    split; [lra|]. split; [lra|assumption].
Qed.

Lemma flat_map_single {B} (f : nat -> list B) (v : list B) k a n : (a <= k < a + n)%nat -> f k = v -> (forall k', k' <> k -> f k' = []) ->
  flat_map f (seq a n) = v.
Proof.
  revert a. induction n as [|n IH]; intros a Hk Hv H0; [lia|]. simpl.
  destruct (Nat.eq_dec a k) as [->|Hne].
  - rewrite Hv. rewrite <- (app_nil_r v) at 2. f_equal.
    assert (forall m b, (k < b)%nat -> flat_map f (seq b m) = []) as X.
    { induction m; intros b Hb; simpl; [reflexivity|]. rewrite H0 by lia. apply IHm. lia. }
    apply X. lia.
  - rewrite (H0 a Hne). simpl. apply IH; [lia|assumption|assumption].
Qed.

(** the points kept by the cells of the row are the snapped points of the rule, each once *)
Lemma kept_row r : (forall q, In q r -> bl - eps3 <= position q < bu - eps3) ->
  exists f, Permutation (flat_map (fun k => kept (cl k) (cu k) bl bu r) (seq lo s)) (map f r) /\
    (forall q, In q r -> snd (f q) = Rabs (bu - bl) * snd q /\ Rabs (fst (f q) - position q) <= eps2 /\ (d > 3 * eps3 -> bl < fst (f q) < bu)).
Proof.
  intros Hr. exists (fun q => hd (0, 0) (flat_map (fun k => place (cl k) (cu k) bl bu q) (seq lo s))).
  assert (One : forall q, In q r -> exists x, flat_map (fun k => place (cl k) (cu k) bl bu q) (seq lo s) = [(x, Rabs (bu - bl) * snd q)]
            /\ Rabs (x - position q) <= eps2 /\ (d > 3 * eps3 -> bl < x < bu)).
  { intros q Hq. destruct (place_once q (Hr q Hq)) as (k & x & Hk & E & Hx & Hx1 & Hx2 & H0).
    exists x. split; [apply flat_map_single with k; assumption|]. split; [assumption|]. intros Hd. specialize (Hx2 Hd).
    assert (P : 0 < eps3) by (unfold eps3; apply Rinv_0_lt_compat, pow_lt; lra).
    destruct Hk as (K1 & K2). apply le_INR in K1. apply (le_INR (S k)) in K2. rewrite S_INR in K2. unfold cl, cu, bl, bu in *. fold (cl lo). unfold cl. nra. }
  split.
  - unfold kept. rewrite (flat_map_swap (fun k q => place (cl k) (cu k) bl bu q)).
    clear Hr. induction r as [|q r IH]; simpl; [constructor|].
    destruct (One q (or_introl eq_refl)) as (x & E & _). rewrite E. simpl.
    constructor. apply IH. intros q' Hq'. apply One. right; assumption.
  - intros q Hq. destruct (One q Hq) as (x & E & Hx). rewrite E. simpl. auto.
Qed.

Lemma kept_inside r k q : d > 3 * eps3 -> (forall q, In q r -> bl - eps3 <= position q < bu - eps3) ->
  In q (kept (cl k) (cu k) bl bu r) -> cl k < fst q < cu k.
Proof.
  intros Hw Hr Hq. unfold kept in Hq. apply in_flat_map in Hq. destruct Hq as (q0 & Hq0 & Hq).
  assert (P : 0 < eps3) by (unfold eps3; apply Rinv_0_lt_compat, pow_lt; lra).
  destruct (place_once q0 (Hr q0 Hq0)) as (k0 & x & Hk & E & _ & H1 & H2 & H0).
  destruct (Nat.eq_dec k k0) as [->|Hne].
  - rewrite E in Hq. destruct Hq as [<-|[]]. simpl. specialize (H2 Hw). lra.
  - rewrite (H0 k Hne) in Hq. destruct Hq.
Qed.
End OneD.

(** ** weights *)
Definition rsum (l : list R) : R := fold_right Rplus 0 l.
Lemma rsum_app a b : rsum (a ++ b) = rsum a + rsum b.
Proof. induction a; simpl; lra. Qed.
Lemma rsum_perm l l' : Permutation l l' -> rsum l = rsum l'.
Proof. induction 1; simpl; lra. Qed.
Lemma rsum_scale c (l : list R) : rsum (map (Rmult c) l) = c * rsum l.
Proof. induction l; simpl; lra. Qed.
Lemma tensor_weights u v w : rsum (map ip_weight (tensor u v w)) = rsum (map snd u) * rsum (map snd v) * rsum (map snd w).
Proof.
  unfold tensor. induction u as [|a u IH]; simpl; [ring|]. rewrite map_app, rsum_app, IH.
  assert (rsum (map ip_weight (flat_map (fun b => map (fun c => IP (Pt (fst a) (fst b) (fst c)) (snd a * snd b * snd c)) w) v))
          = snd a * rsum (map snd v) * rsum (map snd w)) as ->; [|ring].
  clear IH. induction v as [|b v IHv]; simpl; [ring|]. rewrite map_app, rsum_app, IHv, map_map. simpl.
  assert (rsum (map (fun x : R * R => snd a * snd b * snd x) w) = snd a * snd b * rsum (map snd w)) as ->; [|ring].
  clear IHv. induction w as [|c w IHw]; simpl; [ring|]. rewrite IHw. ring.
Qed.
Lemma in_tensor u v w q : In q (tensor u v w) <->
  exists a b c, In a u /\ In b v /\ In c w /\ q = IP (Pt (fst a) (fst b) (fst c)) (snd a * snd b * snd c).
Proof.
  unfold tensor. rewrite in_flat_map. split.
  - intros (a & Ha & H). apply in_flat_map in H. destruct H as (b & Hb & H). apply in_map_iff in H. destruct H as (c & <- & Hc).
    exists a, b, c. auto.
  - intros (a & b & c & Ha & Hb & Hc & ->). exists a. split; [assumption|]. apply in_flat_map. exists b. split; [assumption|].
    apply in_map_iff. exists c. auto.
Qed.

Lemma NoDup_flat_map {A B} (f : A -> list B) l : NoDup l -> (forall x, NoDup (f x)) ->
  (forall x y z, In z (f x) -> In z (f y) -> x = y) -> NoDup (flat_map f l).
Proof.
  intros Hl Hf Hd. induction Hl as [|x l Hx Hl IH]; simpl; [constructor|].
  apply FloodSets.NoDup_app_iff. split; [apply Hf|]. split; [assumption|].
  intros z Hz Hz'. apply in_flat_map in Hz'. destruct Hz' as (y & Hy & Hz'). assert (x = y) by (eapply Hd; eauto). subst; contradiction.
Qed.
Lemma cells_in_nodup lo s : NoDup (cells_in lo s).
Proof.
  unfold cells_in. apply NoDup_flat_map; [apply seq_NoDup| |].
  - intros x. apply NoDup_flat_map; [apply seq_NoDup| |].
    + intros y. apply FinFun.Injective_map_NoDup; [|apply seq_NoDup]. intros a b E. injection E as E. assumption.
    + intros y y' z H H'. apply in_map_iff in H. apply in_map_iff in H'. destruct H as (u & <- & _). destruct H' as (u' & E & _). injection E as E1 E2. congruence.
  - intros x x' z H H'. apply in_flat_map in H. apply in_flat_map in H'. destruct H as (y & _ & H). destruct H' as (y' & _ & H').
    apply in_map_iff in H. apply in_map_iff in H'. destruct H as (u & <- & _). destruct H' as (u' & E & _). injection E as E1 E2 E3. congruence.
Qed.

(** ** the box *)
Section Bx.
Variable gi : indexer.
Hypothesis Hg : grid_ok (gi_grid gi).
Hypothesis Hb : box_ok (gi_uvw gi).
Hypothesis Hs : gi_bspline gi = true.
Let g := gi_grid gi.
Let L a := at_ a (lower (gi_uvw gi)).
Let d a := delta g (gi_uvw gi) a.

Lemma d_pos a : 0 < d a.
Proof.
  unfold d, delta. apply Rdiv_lt_0_compat.
  - apply Rabs_pos_lt. specialize (Hb a). lra.
  - apply lt_0_INR. destruct Hg as (A & B & C). destruct a; simpl; assumption.
Qed.

Lemma cell_low c a : in_grid g c -> at_ a (lower (box_uvw gi (vec_of g c))) = L a + d a * INR (c_at a c).
Proof.
  intros Hc. unfold box_uvw. rewrite Hs. fold g. rewrite mat_of_vec_of by assumption. destruct a; reflexivity.
Qed.
Lemma cell_up c a : in_grid g c -> at_ a (upper (box_uvw gi (vec_of g c))) = L a + d a * (1 + INR (c_at a c)).
Proof.
  intros Hc. unfold box_uvw. rewrite Hs. fold g. rewrite mat_of_vec_of by assumption. destruct a; reflexivity.
Qed.

Lemma merge_low a x y : at_ a (lower (merge_box x y)) = Rmin (at_ a (lower x)) (at_ a (lower y)).
Proof. destruct a; reflexivity. Qed.
Lemma merge_up a x y : at_ a (upper (merge_box x y)) = Rmax (at_ a (upper x)) (at_ a (upper y)).
Proof. destruct a; reflexivity. Qed.

Lemma bounds_fold (bx : nat -> box) a l : forall acc lo,
  (lo <= at_ a (lower acc)) -> (forall i, In i l -> lo <= at_ a (lower (bx i))) ->
  (at_ a (lower acc) = lo \/ exists i, In i l /\ at_ a (lower (bx i)) = lo) ->
  at_ a (lower (fold_left (fun acc i => merge_box acc (bx i)) l acc)) = lo.
Proof.
  induction l as [|i l IH]; intros acc lo H1 H2 H3; simpl.
  - destruct H3 as [H3|(i & [] & _)]; assumption.
  - pose proof (H2 i (or_introl eq_refl)) as Hi.
    apply IH.
    + rewrite merge_low. apply Rmin_glb; assumption.
    + intros j Hj. apply H2. right; assumption.
    + rewrite merge_low. destruct H3 as [H3|(j & [<-|Hj] & E)].
      * left. rewrite Rmin_left; [assumption|]. rewrite H3. assumption.
      * left. rewrite Rmin_right; [assumption|]. rewrite E. assumption.
      * right. exists j. auto.
Qed.
Lemma bounds_fold_up (bx : nat -> box) a l : forall acc up,
  (at_ a (upper acc) <= up) -> (forall i, In i l -> at_ a (upper (bx i)) <= up) ->
  (at_ a (upper acc) = up \/ exists i, In i l /\ at_ a (upper (bx i)) = up) ->
  at_ a (upper (fold_left (fun acc i => merge_box acc (bx i)) l acc)) = up.
Proof.
  induction l as [|i l IH]; intros acc up H1 H2 H3; simpl.
  - destruct H3 as [H3|(i & [] & _)]; assumption.
  - pose proof (H2 i (or_introl eq_refl)) as Hi.
    apply IH.
    + rewrite merge_up. apply Rmax_lub; assumption.
    + intros j Hj. apply H2. right; assumption.
    + rewrite merge_up. destruct H3 as [H3|(j & [<-|Hj] & E)].
      * left. rewrite Rmax_left; [assumption|]. rewrite H3. assumption.
      * left. rewrite Rmax_right; [assumption|]. rewrite E. assumption.
      * right. exists j. auto.
Qed.

Variables (l : list nat) (s lo : c3).
Hypothesis Hn : NoDup l.
Hypothesis HN : forall i, In i l -> (i < num_elements g)%nat.
Hypothesis Sp : (0 < cx s /\ 0 < cy s /\ 0 < cz s)%nat.
Hypothesis Lg : (cx lo + cx s <= nx g /\ cy lo + cy s <= ny g /\ cz lo + cz s <= nz g)%nat.
Hypothesis Hl : forall c, in_grid g c -> (In (vec_of g c) l <-> within lo s c).

Lemma within_grid c : within lo s c -> in_grid g c.
Proof. unfold within, in_grid. lia. Qed.

Lemma l_perm : Permutation l (map (vec_of g) (cells_in lo s)).
Proof.
  apply NoDup_Permutation; [assumption| |].
  - pose proof (cells_in_nodup lo s) as Hnd.
    assert (forall c, In c (cells_in lo s) -> in_grid g c) as Hin by (intros c Hc; apply within_grid, in_cells_in; assumption).
    revert Hnd Hin. generalize (cells_in lo s). induction 1 as [|c cs Hc Hcs IH]; intros Hin; simpl; [constructor|].
    constructor; [|apply IH; intros; apply Hin; right; assumption].
    intros H. apply in_map_iff in H. destruct H as (c' & E & Hc'). apply vec_of_inj in E; [subst; contradiction| |]; apply Hin; [right; assumption|left; reflexivity].
  - intros i. rewrite in_map_iff. split.
    + intros Hi. exists (mat_of g i). rewrite vec_of_mat_of by assumption. split; [reflexivity|]. apply in_cells_in, Hl.
      * apply mat_of_in_grid; [assumption|]. apply HN; assumption.
      * rewrite vec_of_mat_of by assumption. assumption.
    + intros (c & <- & Hc). apply in_cells_in in Hc. apply Hl; [apply within_grid; assumption|assumption].
Qed.

Let bb := bounds_of (box_uvw gi) l.

Lemma bb_bounds a : at_ a (lower bb) = L a + d a * INR (c_at a lo) /\
                    at_ a (upper bb) = L a + d a * INR (c_at a lo + c_at a s).
Proof.
  pose proof (d_pos a) as Hd.
  assert (Hlow : forall i, In i l -> L a + d a * INR (c_at a lo) <= at_ a (lower (box_uvw gi i)) /\ at_ a (upper (box_uvw gi i)) <= L a + d a * INR (c_at a lo + c_at a s)).
  { intros i Hi. pose proof (HN i Hi) as HNi.
    assert (Hc : in_grid g (mat_of g i)) by (apply mat_of_in_grid; assumption).
    rewrite <- (vec_of_mat_of g i Hg). rewrite cell_low, cell_up by assumption.
    assert (within lo s (mat_of g i)) as Hw by (apply Hl; [assumption|rewrite vec_of_mat_of; assumption]).
    assert ((c_at a lo <= c_at a (mat_of g i))%nat /\ (c_at a (mat_of g i) + 1 <= c_at a lo + c_at a s)%nat) as (A & B).
    { unfold within in Hw. destruct a; cbn [c_at]; lia. }
    apply le_INR in A. apply le_INR in B. rewrite plus_INR in B. simpl (INR 1) in B. split; nra. }
  assert (Hex1 : exists i, In i l /\ at_ a (lower (box_uvw gi i)) = L a + d a * INR (c_at a lo)).
  { assert (Hw : within lo s lo) by (unfold within; lia). exists (vec_of g lo).
    split; [apply Hl; [apply within_grid|]; assumption|]. apply cell_low. apply within_grid; assumption. }
  assert (Hex2 : exists i, In i l /\ at_ a (upper (box_uvw gi i)) = L a + d a * INR (c_at a lo + c_at a s)).
  { set (hi := C3 (cx lo + cx s - 1) (cy lo + cy s - 1) (cz lo + cz s - 1)).
    assert (Hw : within lo s hi) by (unfold within, hi; cbn [cx cy cz]; lia). exists (vec_of g hi).
    split; [apply Hl; [apply within_grid|]; assumption|]. rewrite cell_up by (apply within_grid; assumption).
    f_equal. f_equal. rewrite Rplus_comm, <- S_INR. f_equal. unfold hi. destruct a; cbn [c_at cx cy cz]; lia. }
  unfold bb, bounds_of. destruct l as [|e l'].
  { destruct Hex1 as (i & [] & _). }
  split.
  - apply bounds_fold.
    + apply Hlow; left; reflexivity.
    + intros i Hi. apply Hlow; right; assumption.
    + destruct Hex1 as (i & [<-|Hi] & E); [left; assumption|right; exists i; auto].
  - apply bounds_fold_up.
    + apply Hlow; left; reflexivity.
    + intros i Hi. apply Hlow; right; assumption.
    + destruct Hex2 as (i & [<-|Hi] & E); [left; assumption|right; exists i; auto].
Qed.

Variable r : axis -> rule.
(** 1D points lie in [0,1), not closer than the tolerance to the upper end of the box *)
Hypothesis Hr : forall a q, In q (r a) ->
  0 <= fst q /\ at_ a (lower bb) + (at_ a (upper bb) - at_ a (lower bb)) * fst q < at_ a (upper bb) - eps3.

Let k1 a k := kept (L a + d a * INR k) (L a + d a * (1 + INR k)) (L a + d a * INR (c_at a lo)) (L a + d a * INR (c_at a lo + c_at a s)) (r a).

Lemma Hr' a q : In q (r a) -> L a + d a * INR (c_at a lo) - eps3 <= position (L a) (d a) (c_at a lo) (c_at a s) q < L a + d a * INR (c_at a lo + c_at a s) - eps3.
Proof.
  intros Hq. destruct (Hr a q Hq) as (A & B). destruct (bb_bounds a) as (E1 & E2). rewrite E1, E2 in B.
  unfold position. split; [|assumption]. rewrite plus_INR.
  assert (0 <= d a * INR (c_at a s)). { apply Rmult_le_pos; [apply Rlt_le, d_pos|apply pos_INR]. }
  assert (0 < eps3) by (unfold eps3; apply Rinv_0_lt_compat, pow_lt; lra). nra.
Qed.

Lemma element_k1 c : in_grid g c -> element_points (box_uvw gi (vec_of g c)) bb r = tensor (k1 AX (cx c)) (k1 AY (cy c)) (k1 AZ (cz c)).
Proof.
  intros Hc. unfold element_points, k1. rewrite !cell_low, !cell_up by assumption.
  rewrite !(proj1 (bb_bounds _)), !(proj2 (bb_bounds _)). reflexivity.
Qed.

Lemma all_points : exists f : axis -> R * R -> R * R,
  Permutation (flat_map (fun i => element_points (box_uvw gi i) bb r) l) (tensor (map (f AX) (r AX)) (map (f AY) (r AY)) (map (f AZ) (r AZ))) /\
  forall a q, In q (r a) -> snd (f a q) = (at_ a (upper bb) - at_ a (lower bb)) * snd q /\
     Rabs (fst (f a q) - (at_ a (lower bb) + (at_ a (upper bb) - at_ a (lower bb)) * fst q)) <= eps2 /\
     (d a > 3 * eps3 -> at_ a (lower bb) < fst (f a q) < at_ a (upper bb)).
Proof.
  assert (X : forall a, exists f, Permutation (flat_map (k1 a) (seq (c_at a lo) (c_at a s))) (map f (r a)) /\
     forall q, In q (r a) -> snd (f q) = (at_ a (upper bb) - at_ a (lower bb)) * snd q /\
       Rabs (fst (f q) - (at_ a (lower bb) + (at_ a (upper bb) - at_ a (lower bb)) * fst q)) <= eps2 /\
       (d a > 3 * eps3 -> at_ a (lower bb) < fst (f q) < at_ a (upper bb))).
  { intros a. destruct (kept_row (L a) (d a) (c_at a lo) (c_at a s) (r a) (Hr' a)) as (f & P & F).
    exists f. split; [exact P|]. intros q Hq. destruct (F q Hq) as (F1 & F2). destruct (bb_bounds a) as (E1 & E2).
    rewrite E1, E2. split; [|exact F2]. rewrite F1. rewrite Rabs_right; [reflexivity|].
    rewrite plus_INR. assert (0 <= d a * INR (c_at a s)). { apply Rmult_le_pos; [apply Rlt_le, d_pos|apply pos_INR]. } lra. }
  destruct (X AX) as (f1 & P1 & F1). destruct (X AY) as (f2 & P2 & F2). destruct (X AZ) as (f3 & P3 & F3).
  exists (fun a => match a with AX => f1 | AY => f2 | AZ => f3 end). split.
  - rewrite (flat_map_perm _ _ _ l_perm). rewrite flat_map_map.
    rewrite <- (tensor_perm _ _ _ _ _ _ P1 P2 P3). rewrite <- tensor_flat_map. unfold cells_in. cbn [c_at].
    rewrite flat_map_flat_map. apply flat_map_ext_perm. intros x Hx. rewrite flat_map_flat_map. apply flat_map_ext_perm. intros y Hy.
    rewrite flat_map_map. apply flat_map_ext_perm. intros z Hz. rewrite element_k1; [reflexivity|].
    apply within_grid. apply in_seq in Hx, Hy, Hz. unfold within. simpl. lia.
  - intros [] q Hq; auto.
Qed.

Lemma points_inside i q : (forall a, d a > 3 * eps3) -> In i l -> In q (element_points (box_uvw gi i) bb r) -> in_open (box_uvw gi i) (ip_pos q).
Proof.
  intros Hw Hi Hq. pose proof (HN i Hi) as HNi.
  assert (Hc : in_grid g (mat_of g i)) by (apply mat_of_in_grid; assumption).
  rewrite <- (vec_of_mat_of g i Hg) in Hq |- *. rewrite element_k1 in Hq by assumption. apply in_tensor in Hq.
  destruct Hq as (a & b & c & Ha & Hb' & Hc' & ->). intros ax. rewrite cell_low, cell_up by assumption. simpl ip_pos.
  destruct ax; cbn [at_ c_at px py pz].
  - apply (kept_inside (L AX) (d AX) (cx lo) (cx s) (r AX)); [apply Hw|apply Hr'|assumption].
  - apply (kept_inside (L AY) (d AY) (cy lo) (cy s) (r AY)); [apply Hw|apply Hr'|assumption].
  - apply (kept_inside (L AZ) (d AZ) (cz lo) (cz s) (r AZ)); [apply Hw|apply Hr'|assumption].
Qed.
End Bx.
