(** Proofs about the construction of the spline of one direction. *)
From Coq Require Import Reals List Arith Bool ZArith Lia Lra Psatz.
From Verif Require Import Geo GridModel GridGeoModel BSplineModel BSplineSpec BSplineProofs.
Import ListNotations.
Local Open Scope R_scope.

Definition at_list (t : list R) (i : nat) : R := nth i t 0.
(** The coefficients are the images of the averages of the knots under a + b * x. *)
Definition averaged (a b : R) (t c : list R) (k : nat) : Prop :=
  (bs_n t k <= length c)%nat /\ forall i, (i < bs_n t k)%nat -> nth i c 0 = a + b * average (at_list t) k i.

(** *** Lists of knots *)
Lemma nd_app c t1 t2 : nondecreasing t1 = true -> nondecreasing t2 = true -> (forall x, In x t1 -> x <= c) -> (forall x, In x t2 -> c <= x) -> nondecreasing (t1 ++ t2) = true.
Proof.
  intros H1 H2 L U. induction t1 as [|x t1 IH]; [exact H2|]. destruct t1 as [|y t1].
  - cbn [app]. destruct t2 as [|z t2]; [reflexivity|]. cbn [nondecreasing]. apply andb_true_iff. split; [|exact H2]. apply rle_true. assert (A := L x (or_introl eq_refl)). assert (B := U z (or_introl eq_refl)). lra.
  - cbn [nondecreasing] in H1. apply andb_true_iff in H1 as [A B]. cbn [app nondecreasing]. apply andb_true_iff. split; [exact A|]. apply IH; [exact B|intros v I; apply L; right; exact I].
Qed.
Lemma nd_map f m r : (forall i, f i <= f (S i)) -> nondecreasing (map f (seq m r)) = true.
Proof. intros H. revert m. induction r as [|r IH]; intros m; [reflexivity|]. specialize (IH (S m)). destruct r as [|r]; [reflexivity|]. cbn [seq map nondecreasing] in *. apply andb_true_iff. split; [apply rle_true, H|exact IH]. Qed.
Lemma nd_nth t i : nondecreasing t = true -> (S i < length t)%nat -> at_list t i <= at_list t (S i).
Proof.
  revert i. induction t as [|x t IH]; intros i H L; [cbn in L; lia|]. destruct t as [|y t]; [cbn in L; lia|]. cbn [nondecreasing] in H. apply andb_true_iff in H as [A B].
  destruct i as [|i]; [cbn; apply rle_true, A|]. apply (IH i B). cbn [length] in *. lia.
Qed.
Lemma map_const {A} (c : R) (l : list A) : map (fun _ => c) l = repeat c (length l).
Proof. induction l as [|a l IH]; [reflexivity|]. cbn. f_equal. exact IH. Qed.
Lemma nth_inserted t l x i : (l < length t)%nat -> nth i (firstn (l + 1) t ++ x :: skipn (l + 1) t) 0 = if (i <=? l)%nat then nth i t 0 else if (i =? l + 1)%nat then x else nth (i - 1) t 0.
Proof.
  intros L. assert (F : length (firstn (l + 1) t) = (l + 1)%nat) by (apply firstn_length_le; lia). destruct (Nat.leb_spec i l).
  - rewrite app_nth1 by lia. rewrite <- (firstn_skipn (l + 1) t) at 2. rewrite app_nth1 by lia. reflexivity.
  - rewrite app_nth2 by lia. rewrite F. destruct (Nat.eqb_spec i (l + 1)) as [->|].
    + rewrite Nat.sub_diag. reflexivity.
    + replace (i - (l + 1))%nat with (S (i - 1 - (l + 1))) by lia. cbn [nth]. rewrite <- (firstn_skipn (l + 1) t) at 2. rewrite app_nth2 by lia. rewrite F. reflexivity.
Qed.
Lemma index_split t1 t2 x : (forall y, In y t1 -> y <= x) -> (forall y, In y t2 -> x < y) -> knot_index (t1 ++ t2) x = pred (length t1).
Proof.
  intros H1 H2. unfold knot_index. f_equal.
  assert (F1 : List.filter (fun y => rle y x) t1 = t1).
  { clear H2. induction t1 as [|a t1 IH]; [reflexivity|]. cbn [List.filter]. rewrite (proj2 (rle_true a x)) by (apply H1; left; reflexivity). f_equal. apply IH. intros y I. apply H1. right. exact I. }
  assert (F2 : List.filter (fun y => rle y x) t2 = []).
  { clear H1 F1. induction t2 as [|a t2 IH]; [reflexivity|]. cbn [List.filter]. rewrite (proj2 (rle_false a x)) by (apply H2; left; reflexivity). apply IH. intros y I. apply H2. right. exact I. }
  assert (E : forall u v : list R, List.filter (fun y => rle y x) (u ++ v) = List.filter (fun y => rle y x) u ++ List.filter (fun y => rle y x) v).
  { induction u as [|a u IH]; intros v; [reflexivity|]. cbn [app List.filter]. destruct (rle a x); [cbn [app]; f_equal|]; apply IH. }
  rewrite E, F1, F2, app_nil_r. reflexivity.
Qed.

(** *** One insertion *)
Section Boehm.
Variables (t c : list R) (k l : nat) (x a b : R).
Hypothesis Hk : (1 <= k <= l)%nat.
Hypothesis Hl : (l < bs_n t k)%nat.
Hypothesis Nd : nondecreasing t = true.
Hypothesis Hx : at_list t l <= x < at_list t (l + 1).
Hypothesis Av : averaged a b t c k.
Let t' := firstn (l + 1) t ++ x :: skipn (l + 1) t.
Lemma len_t : (l + k + 1 < length t)%nat.
Proof. unfold bs_n in Hl. lia. Qed.
Lemma t'_at i : at_list t' i = if (i <=? l)%nat then at_list t i else if (i =? l + 1)%nat then x else at_list t (i - 1).
Proof. apply nth_inserted. assert (H := len_t). lia. Qed.
Lemma at_mono i j : (i <= j < length t)%nat -> at_list t i <= at_list t j.
Proof. intros H. apply (mono (at_list t) (length t - 1)); [|lia]. intros m Hm. apply nd_nth; [exact Nd|lia]. Qed.
Lemma inserted_ok i : (i <= bs_n t k)%nat -> inserted_c t c k l x i = a + b * average (at_list t') k i.
Proof.
  intros Hi. destruct Av as [Lc A]. assert (Lt := len_t). assert (Nk : 0 < INR k) by (apply lt_0_INR; lia). unfold inserted_c. destruct (Nat.leb_spec (i + k) l) as [H1|H1].
  - rewrite A by lia. f_equal. f_equal. unfold average. f_equal. apply upto_ext. intros m Hm. rewrite t'_at. destruct (Nat.leb_spec (i + 1 + m) l); [reflexivity|lia].
  - destruct (Nat.leb_spec i l) as [H2|H2].
    + change (nth i t 0) with (at_list t i). change (nth (i + k) t 0) with (at_list t (i + k)). rewrite !A by lia.
      assert (D : at_list t i < at_list t (i + k)) by (assert (at_list t i <= at_list t l) by (apply at_mono; lia); assert (at_list t (l + 1) <= at_list t (i + k)) by (apply at_mono; lia); lra).
      set (q := (l - i)%nat). set (r := (k - 1 - q)%nat).
      assert (E : upto k (fun m => at_list t' (i + 1 + m)) = upto (k - 1) (fun m => at_list t (i + 1 + m)) + x).
      { replace k with (q + (1 + r))%nat at 1 by lia. replace (k - 1)%nat with (q + r)%nat by lia. rewrite !upto_add. cbn [upto].
        rewrite (upto_ext q _ (fun m => at_list t (i + 1 + m))).
        2: { intros m Hm. rewrite t'_at. destruct (Nat.leb_spec (i + 1 + m) l); [reflexivity|lia]. }
        rewrite (upto_ext r _ (fun m => at_list t (i + 1 + (q + m)))).
        2: { intros m Hm. rewrite t'_at. destruct (Nat.leb_spec (i + 1 + (q + (1 + m))) l); [lia|]. destruct (Nat.eqb_spec (i + 1 + (q + (1 + m))) (l + 1)); [lia|]. f_equal. lia. }
        rewrite t'_at. destruct (Nat.leb_spec (i + 1 + (q + 0)) l); [lia|]. destruct (Nat.eqb_spec (i + 1 + (q + 0)) (l + 1)); [|lia]. lra. }
      unfold average. rewrite E.
      assert (E1 : upto k (fun m => at_list t (i + 1 + m)) = upto (k - 1) (fun m => at_list t (i + 1 + m)) + at_list t (i + k)).
      { replace k with (S (k - 1)) at 1 by lia. cbn [upto]. f_equal. f_equal. lia. }
      assert (E2 : upto k (fun m => at_list t (i - 1 + 1 + m)) = at_list t i + upto (k - 1) (fun m => at_list t (i + 1 + m))).
      { replace k with (S (k - 1)) at 1 by lia. rewrite upto_S. f_equal; [f_equal; lia|]. apply upto_ext. intros m _. f_equal. lia. }
      rewrite E1, E2. field. split; lra.
    + rewrite A by lia. f_equal. f_equal. unfold average. f_equal. apply upto_ext. intros m Hm. rewrite t'_at. destruct (Nat.leb_spec (i + 1 + m) l); [lia|]. destruct (Nat.eqb_spec (i + 1 + m) (l + 1)); [lia|]. f_equal. lia.
Qed.
Lemma inserted_averaged d : averaged a b t' (map (inserted_c t c k l x) (seq 0 (bs_n t k + 1)) ++ d) k.
Proof.
  assert (Lt := len_t). assert (L : length t' = S (length t)) by (unfold t'; rewrite app_length; cbn [length]; rewrite firstn_length_le, skipn_length by lia; lia).
  assert (N : bs_n t' k = (bs_n t k + 1)%nat) by (unfold bs_n; rewrite L; lia).
  split; [rewrite app_length, map_length, seq_length; lia|]. intros i Hi. rewrite N in Hi. rewrite app_nth1 by (rewrite map_length, seq_length; lia).
  rewrite (nth_indep _ 0 (inserted_c t c k l x 0)) by (rewrite map_length, seq_length; lia). rewrite map_nth, seq_nth by lia. apply inserted_ok. lia.
Qed.
End Boehm.

(** *** All insertions *)
Section All.
Variable pad : list R -> list R.
Variables (p n : nat) (lu uu a b : R) (pre post : list R).
Let du := (uu - lu) / INR n.
Hypothesis Hp : (1 <= p)%nat.
Hypothesis Hn : (1 <= n)%nat.
Hypothesis Hu : lu < uu.
Hypothesis Lpre : length pre = (p + 1)%nat.
Hypothesis Lpost : length post = (p + 1)%nat.
Hypothesis Npre : nondecreasing pre = true.
Hypothesis Npost : nondecreasing post = true.
Hypothesis Ipre : forall x, In x pre -> x <= lu.
Hypothesis Ipost : forall x, In x post -> uu <= x.
Hypothesis Epre : at_list pre p = lu.
Hypothesis Epost : at_list post 0 = uu.
Definition inner_knot (i : nat) : R := lu + du + INR i * du.
Definition knots (m : nat) : list R := pre ++ map inner_knot (seq 0 m) ++ post.
Lemma du_pos : 0 < du.
Proof. unfold du. apply Rdiv_lt_0_compat; [lra|apply lt_0_INR; lia]. Qed.
Lemma n_du : INR n * du = uu - lu.
Proof. unfold du. field. apply not_0_INR. lia. Qed.
Lemma inner_below i : (i < n - 1)%nat -> lu < inner_knot i < uu.
Proof.
  intros H. assert (D := du_pos). assert (E := n_du). unfold inner_knot. assert (P := pos_INR i). assert (I : INR (S (S i)) <= INR n) by (apply le_INR; lia). rewrite !S_INR in I. nra.
Qed.
Lemma inner_step i : inner_knot i <= inner_knot (S i).
Proof. unfold inner_knot. rewrite S_INR. assert (D := du_pos). lra. Qed.
Lemma inner_in m x : (m <= n - 1)%nat -> In x (map inner_knot (seq 0 m)) -> lu < x < uu.
Proof. intros Hm I. apply in_map_iff in I as (i & <- & I). apply in_seq in I. apply inner_below. lia. Qed.
Lemma knots_nd m : (m <= n - 1)%nat -> nondecreasing (knots m) = true.
Proof.
  intros Hm. unfold knots. apply (nd_app lu); [exact Npre| |exact Ipre|].
  - apply (nd_app uu); [apply nd_map, inner_step|exact Npost| |exact Ipost]. intros x I. apply inner_in in I; [lra|exact Hm].
  - intros x I. apply in_app_or in I as [I|I]; [apply inner_in in I; [lra|exact Hm]|]. assert (K := Ipost x I). lra.
Qed.
Lemma knots_length m : length (knots m) = (2 * p + 2 + m)%nat.
Proof. unfold knots. rewrite !app_length, map_length, seq_length, Lpre, Lpost. lia. Qed.
Lemma knots_n m : bs_n (knots m) p = (p + 1 + m)%nat.
Proof. unfold bs_n. rewrite knots_length. lia. Qed.
Lemma knots_pre m i : (i <= p)%nat -> at_list (knots m) i = at_list pre i.
Proof. intros H. unfold knots, at_list. apply app_nth1. lia. Qed.
Lemma knots_mid m i : (i < m)%nat -> at_list (knots m) (p + 1 + i) = inner_knot i.
Proof.
  intros H. unfold knots, at_list. rewrite app_nth2 by lia. rewrite Lpre. replace (p + 1 + i - (p + 1))%nat with i by lia. rewrite app_nth1 by (rewrite map_length, seq_length; lia).
  rewrite (nth_indep _ 0 (inner_knot 0)) by (rewrite map_length, seq_length; lia). rewrite map_nth, seq_nth by lia. reflexivity.
Qed.
Lemma knots_post m i : at_list (knots m) (p + 1 + m + i) = at_list post i.
Proof. unfold knots, at_list. rewrite app_nth2 by lia. rewrite Lpre, app_nth2 by (rewrite map_length, seq_length; lia). rewrite map_length, seq_length. f_equal. lia. Qed.
Lemma make_ok m c : (m <= n - 1)%nat -> (p + 1 + m <= length c)%nat -> make_bspline (knots m) c p = Some (BSpline (knots m) c p).
Proof.
  intros Hm Hc. unfold make_bspline. rewrite knots_n, knots_length, (knots_nd m Hm). change (nth (p + 1 + m) (knots m) 0) with (at_list (knots m) (p + 1 + m)). change (nth p (knots m) 0) with (at_list (knots m) p).
  rewrite (knots_pre m p), Epre by lia. replace (p + 1 + m)%nat with (p + 1 + m + 0)%nat at 1 by lia. rewrite knots_post, Epost.
  rewrite (proj2 (rle_false uu lu) Hu). destruct (Nat.leb_spec (2 * p + 2) (2 * p + 2 + m)); [|lia]. destruct (Nat.leb_spec (p + 1 + m) (length c)); [reflexivity|lia].
Qed.
Lemma one m s : (S m <= n - 1)%nat -> bs_t s = knots m -> bs_k s = p -> averaged a b (bs_t s) (bs_c s) p ->
  exists s', insert_knot pad (inner_knot m) s = Some s' /\ bs_t s' = knots (S m) /\ bs_k s' = p /\ averaged a b (bs_t s') (bs_c s') p.
Proof.
  intros Hm Et Ek Av. unfold insert_knot. rewrite Ek, Et. rewrite knots_n. change (nth p (knots m) 0) with (at_list (knots m) p). change (nth (p + 1 + m) (knots m) 0) with (at_list (knots m) (p + 1 + m)).
  assert (B := inner_below m ltac:(lia)). assert (E0 : at_list (knots m) (p + 1 + m) = uu) by (replace (p + 1 + m)%nat with (p + 1 + m + 0)%nat by lia; rewrite knots_post; exact Epost).
  rewrite (knots_pre m p), Epre, E0 by lia. rewrite (proj2 (rle_true lu (inner_knot m))), (proj2 (rle_true (inner_knot m) uu)) by lra. cbn [andb].
  assert (K : knot_index (knots m) (inner_knot m) = (p + m)%nat).
  { unfold knots. rewrite app_assoc. rewrite index_split.
    - rewrite app_length, map_length, seq_length, Lpre. lia.
    - intros y I. apply in_app_or in I as [I|I]; [assert (H := Ipre y I); lra|]. apply in_map_iff in I as (i & <- & I). apply in_seq in I. unfold inner_knot. assert (D := du_pos). assert (INR i <= INR m) by (apply le_INR; lia). nra.
    - intros y I. assert (H := Ipost y I). lra. }
  rewrite K. set (l := (p + m)%nat). set (c' := map _ _).
  assert (T' : firstn (l + 1) (knots m) ++ inner_knot m :: skipn (l + 1) (knots m) = knots (S m)).
  { unfold knots. rewrite !app_assoc. assert (L : length (pre ++ map inner_knot (seq 0 m)) = (l + 1)%nat) by (rewrite app_length, map_length, seq_length, Lpre; unfold l; lia).
    rewrite <- L. rewrite firstn_app, firstn_all, Nat.sub_diag, skipn_app, skipn_all, Nat.sub_diag. cbn [firstn skipn app]. rewrite app_nil_r.
    rewrite seq_S, map_app, app_assoc. cbn [map]. rewrite <- !app_assoc. reflexivity. }
  rewrite Et in Av.
  assert (Av' : averaged a b (knots (S m)) (c' ++ pad c') p).
  { rewrite <- T'. unfold c'. rewrite <- (knots_n m). replace (bs_n (knots m) p + 1)%nat with (bs_n (knots m) p + 1)%nat by lia. apply inserted_averaged; [unfold l; lia|rewrite knots_n; unfold l; lia|apply knots_nd; lia| |exact Av].
    split.
    - unfold l. destruct m as [|m]; [rewrite Nat.add_0_r, knots_pre, Epre by lia; lra|]. replace (p + S m)%nat with (p + 1 + m)%nat by lia. rewrite knots_mid by lia. apply inner_step.
    - unfold l. replace (p + m + 1)%nat with (p + 1 + m)%nat by lia. rewrite E0. lra. }
  rewrite T', make_ok.
  - eexists. split; [reflexivity|]. cbn [bs_t bs_k bs_c]. auto.
  - exact Hm.
  - destruct Av' as [L _]. rewrite knots_n in L. exact L.
Qed.
Lemma all_ok r m s : (m + r <= n - 1)%nat -> bs_t s = knots m -> bs_k s = p -> averaged a b (bs_t s) (bs_c s) p ->
  exists s', insert_all pad (map inner_knot (seq m r)) s = Some s' /\ bs_t s' = knots (m + r) /\ bs_k s' = p /\ averaged a b (bs_t s') (bs_c s') p.
Proof.
  revert m s. induction r as [|r IH]; intros m s Hm Et Ek Av.
  - exists s. rewrite Nat.add_0_r. cbn. auto.
  - cbn [seq map insert_all]. destruct (one m s ltac:(lia) Et Ek Av) as (s1 & -> & E1 & E2 & E3). destruct (IH (S m) s1 ltac:(lia) E1 E2 E3) as (s' & -> & F1 & F2 & F3). exists s'. split; [reflexivity|]. rewrite F1. split; [f_equal; lia|]. split; [exact F2|]. rewrite <- F1. exact F3.
Qed.
End All.
