(** Proofs about the clipping in double precision. *)
From Coq Require Import Reals ZArith List Arith Bool Lia Lra.
From Flocq Require Import Core Relative.
From Verif Require Import Geo MappingModel TrimmedQuadModel MeshModel MeshGeoModel ClipModel GridRoundModel GridRoundProofs ClipRoundModel.
Import ListNotations.
Local Open Scope R_scope.

(** ** Rounding. *)
Lemma fl_opp x : fl (- x) = - fl x. Proof. unfold fl. apply round_NE_opp. Qed.
Lemma fl_pos x : 0 < fl x -> 0 < x. Proof. intros H. apply Rnot_le_lt. intros L. apply fl_le in L. rewrite fl_0 in L. lra. Qed.
Lemma fl_neg x : fl x < 0 -> x < 0. Proof. intros H. apply Rnot_le_lt. intros L. apply fl_le in L. rewrite fl_0 in L. lra. Qed.
Lemma double_0 : is_double 0. Proof. apply generic_format_0. Qed.
Lemma double_1 : is_double 1. Proof. apply (double_Z 1). lia. Qed.
Lemma u_small : 0 < u /\ u * 1000000 <= 1. Proof. unfold u. lra. Qed.

(** The tolerances. *)
Lemma e14 : bpow radix2 (-1022) <= / 10 ^ 14.
Proof.
  apply Rle_trans with (bpow radix2 (-47)); [apply bpow_le; lia|]. replace (bpow radix2 (-47)) with (/ 2 ^ 47) by (cbn; lra). apply Rinv_le_contravar; [apply pow_lt; lra|]. lra.
Qed.
Lemma zerotol_close : Rabs (zerotol_d - zerotol) <= u * zerotol. Proof. apply fl_rel, e14. Qed.
Lemma zerotol_pos : 0 < zerotol. Proof. unfold zerotol. apply Rinv_0_lt_compat, pow_lt. lra. Qed.
Lemma zerotol_range : 0 < zerotol_d <= 2 * zerotol.
Proof. pose proof zerotol_close as C. pose proof zerotol_pos. pose proof u_small. apply Rabs_le_inv in C. assert (u * zerotol <= 1 / 1000000 * zerotol) by (apply Rmult_le_compat_r; lra). lra. Qed.
Lemma tol_close : plane_tol * (1 - 1 / 10000) <= plane_tol_d <= plane_tol * (1 + 1 / 10000).
Proof.
  pose proof zerotol_close as C. pose proof zerotol_pos as Z. pose proof u_small as U. apply Rabs_le_inv in C. assert (D : u * zerotol <= 1 / 1000000 * zerotol) by (apply Rmult_le_compat_r; lra).
  assert (F : Rabs (plane_tol_d - 10 * zerotol_d) <= u * (10 * zerotol_d)). { apply fl_rel. pose proof e14 as E. fold zerotol in E. lra. }
  apply Rabs_le_inv in F. assert (G : u * (10 * zerotol_d) <= 1 / 1000000 * (10 * zerotol_d)) by (apply Rmult_le_compat_r; lra). unfold plane_tol. lra.
Qed.
Lemma tol_pos_d : 0 < plane_tol_d. Proof. pose proof tol_close. pose proof zerotol_pos. unfold plane_tol in *. lra. Qed.

(** A rounded difference within the tolerance. *)
Definition wide_tol : R := 1001 / 1000 * plane_tol.
Lemma eta_tol : bpow radix2 (-1074) <= 1 / 1000000 * plane_tol.
Proof.
  destruct small_bpow as [A _]. pose proof u_small as U. pose proof zerotol_pos. assert (E : bpow radix2 (-1000) <= zerotol).
  { apply Rle_trans with (bpow radix2 (-47)); [apply bpow_le; lia|]. unfold zerotol. replace (bpow radix2 (-47)) with (/ 2 ^ 47) by (cbn; lra). apply Rinv_le_contravar; [apply pow_lt; lra|lra]. }
  eapply Rle_trans; [exact A|]. apply Rle_trans with (1 / 1000000 * bpow radix2 (-1000)); [apply Rmult_le_compat_r; [apply bpow_ge_0|clear -U; lra]|]. unfold plane_tol. clear -E H. lra.
Qed.
Lemma fl_within x : Rabs (fl x) <= plane_tol_d -> Rabs x <= wide_tol.
Proof.
  intros H. pose proof (fl_abs x) as E. pose proof tol_close. pose proof eta_tol. pose proof u_small as U. pose proof zerotol_pos. pose proof (Rabs_pos x). assert (T : Rabs x <= Rabs (fl x) + Rabs (fl x - x)). { replace x with (fl x - (fl x - x)) at 1 by ring. eapply Rle_trans; [apply Rabs_triang|]. rewrite Rabs_Ropp. lra. }
  assert (u * Rabs x <= 1 / 1000000 * Rabs x) by (apply Rmult_le_compat_r; lra). unfold wide_tol, plane_tol in *. lra.
Qed.

(** ** Sides. *)
Definition apart (pos a b : R) : Prop := (a < pos < b /\ 0 < fl (pos - a)) \/ (b < pos < a /\ fl (pos - a) < 0).
Definition opposite (x y : side) : Prop := (x = Front /\ y = Behind) \/ (x = Behind /\ y = Front).
Lemma front_d k pos eps p : classify_d k pos eps p = Front -> eps < plane_dist_d k pos p.
Proof. unfold classify_d. destruct (Rlt_dec eps _); [intros _; assumption|]. destruct (Rlt_dec _ (- eps)); discriminate. Qed.
Lemma behind_d k pos eps p : classify_d k pos eps p = Behind -> plane_dist_d k pos p < - eps.
Proof. unfold classify_d. destruct (Rlt_dec eps _); [discriminate|]. destruct (Rlt_dec _ (- eps)); [intros _; assumption|discriminate]. Qed.
Lemma on_d k pos eps p : classify_d k pos eps p = On -> Rabs (plane_dist_d k pos p) <= eps.
Proof. unfold classify_d. destruct (Rlt_dec eps _); [discriminate|]. destruct (Rlt_dec _ (- eps)); [discriminate|]. intros _. apply Rabs_le. lra. Qed.
Lemma flip pos x : fl (x - pos) = - fl (pos - x). Proof. rewrite <- fl_opp. f_equal. ring. Qed.
Lemma opposite_apart k pos eps a b : 0 < eps -> opposite (classify_d k pos eps a) (classify_d k pos eps b) -> apart pos (at_ (axis_of k) a) (at_ (axis_of k) b).
Proof.
  intros E [[A B]|[A B]].
  - apply front_d in A. apply behind_d in B. unfold plane_dist_d, apart in *. destruct (Nat.even k).
    + left. pose proof (fl_pos (pos - at_ (axis_of k) a) ltac:(lra)). pose proof (fl_neg (pos - at_ (axis_of k) b) ltac:(lra)). lra.
    + right. rewrite flip in A. rewrite flip in B. pose proof (fl_neg (pos - at_ (axis_of k) a) ltac:(lra)). pose proof (fl_pos (pos - at_ (axis_of k) b) ltac:(lra)). lra.
  - apply behind_d in A. apply front_d in B. unfold plane_dist_d, apart in *. destruct (Nat.even k).
    + right. pose proof (fl_neg (pos - at_ (axis_of k) a) ltac:(lra)). pose proof (fl_pos (pos - at_ (axis_of k) b) ltac:(lra)). lra.
    + left. rewrite flip in A. rewrite flip in B. pose proof (fl_pos (pos - at_ (axis_of k) a) ltac:(lra)). pose proof (fl_neg (pos - at_ (axis_of k) b) ltac:(lra)). lra.
Qed.
Lemma on_near k pos eps p : eps <= plane_tol_d -> classify_d k pos eps p = On -> Rabs (at_ (axis_of k) p - pos) <= wide_tol.
Proof.
  intros E H. apply on_d in H. unfold plane_dist_d in H. destruct (Nat.even k); [rewrite Rabs_minus_sym|]; apply fl_within; lra.
Qed.

(** ** The parameter of the intersection point. *)
Lemma ratio_range n d : 0 < n <= d -> 0 <= fl (n / d) <= 1.
Proof.
  intros H. assert (A : 0 <= n / d) by (apply Rlt_le, Rdiv_lt_0_compat; lra). assert (B : n / d <= 1) by (apply Rmult_le_reg_r with d; [lra|]; unfold Rdiv; rewrite Rmult_assoc, Rinv_l by lra; lra).
  split; [rewrite <- fl_0 at 1|rewrite <- (fl_id 1 double_1)]; apply fl_le; assumption.
Qed.
Lemma param_range pos a b : apart pos a b -> 0 <= fl (fl (pos - a) / fl (b - a)) <= 1.
Proof.
  intros [[O P]|[O P]].
  - apply ratio_range. split; [exact P|apply fl_le; lra].
  - assert (L : fl (b - a) <= fl (pos - a)) by (apply fl_le; lra). replace (fl (pos - a) / fl (b - a)) with (- fl (pos - a) / - fl (b - a)) by (field; lra). apply ratio_range. lra.
Qed.

Section Clip.
Variable contract : bool.
Notation between_d := (between_d contract). Notation find_intersection_d := (find_intersection_d contract). Notation add_crossing_d := (add_crossing_d contract).
Notation clip_edge_d := (clip_edge_d contract). Notation clip_loop_d := (clip_loop_d contract). Notation clip_polygon_d := (clip_polygon_d contract).
Notation clip_direction_d := (clip_direction_d contract). Notation clip_triangle_d := (clip_triangle_d contract).

Lemma between_double t a b : is_double (between_d t a b). Proof. apply fl_double. Qed.
Lemma between_up t a b : 0 <= t <= 1 -> is_double a -> a <= b -> a <= between_d t a b <= fl (a + fl (b - a)).
Proof.
  intros T D L. assert (P : 0 <= fl (b - a)) by (rewrite <- fl_0; apply fl_le; lra). set (d := fl (b - a)) in *. assert (F : fl d = d) by (apply fl_id, fl_double).
  assert (A : 0 <= t * d <= d) by (split; [apply Rmult_le_pos; lra|rewrite <- (Rmult_1_l d) at 2; apply Rmult_le_compat_r; lra]).
  assert (B : 0 <= (if contract then t * d else fl (t * d)) <= d). { destruct contract; [exact A|]. split; [apply Rle_trans with (fl 0); [rewrite fl_0; lra|]|apply Rle_trans with (fl d); [|rewrite F; lra]]; apply fl_le; apply A. }
  unfold ClipRoundModel.between_d. fold d. split; [apply Rle_trans with (fl a); [rewrite (fl_id a D); lra|]|]; apply fl_le; lra.
Qed.
Lemma between_down t a b : 0 <= t <= 1 -> is_double a -> b <= a -> fl (a + fl (b - a)) <= between_d t a b <= a.
Proof.
  intros T D L. assert (P : fl (b - a) <= 0) by (rewrite <- fl_0; apply fl_le; lra). set (d := fl (b - a)) in *. assert (F : fl d = d) by (apply fl_id, fl_double).
  assert (A : d <= t * d <= 0). { pose proof (Rmult_le_pos t (- d) ltac:(lra) ltac:(lra)). pose proof (Rmult_le_compat_r (- d) t 1 ltac:(lra) ltac:(lra)). lra. }
  assert (B : d <= (if contract then t * d else fl (t * d)) <= 0). { destruct contract; [exact A|]. split; [apply Rle_trans with (fl d); [rewrite F; lra|]|apply Rle_trans with (fl 0); [|rewrite fl_0; lra]]; apply fl_le; apply A. }
  unfold ClipRoundModel.between_d. fold d. split; [|apply Rle_trans with (fl a); [|rewrite (fl_id a D); lra]]; apply fl_le; lra.
Qed.
Definition step_error (m : R) : R := 4 * u * m + 3 * bpow radix2 (-1074).
Lemma end_error a b m : Rabs a <= m -> Rabs b <= m -> Rabs (fl (a + fl (b - a)) - b) <= step_error m.
Proof.
  intros A B. pose proof (fl_abs (b - a)) as E1. pose proof (fl_abs (a + fl (b - a))) as E2. pose proof u_small as U. pose proof tiny_pos as T. set (eta := bpow radix2 (-1074)) in *. set (d := fl (b - a)) in *.
  assert (M : 0 <= m) by (pose proof (Rabs_pos a); lra). assert (Hd : Rabs (b - a) <= 2 * m). { eapply Rle_trans; [apply Rabs_triang|]. rewrite Rabs_Ropp. lra. }
  assert (E3 : Rabs (d - (b - a)) <= u * (2 * m) + eta). { eapply Rle_trans; [exact E1|]. apply Rplus_le_compat_r, Rmult_le_compat_l; lra. }
  assert (Hs : Rabs (a + d) <= m + (u * (2 * m) + eta)). { replace (a + d) with (b + (d - (b - a))) by ring. eapply Rle_trans; [apply Rabs_triang|]. lra. }
  assert (E4 : Rabs (fl (a + d) - (a + d)) <= u * (m + (u * (2 * m) + eta)) + eta). { eapply Rle_trans; [exact E2|]. apply Rplus_le_compat_r, Rmult_le_compat_l; lra. }
  replace (fl (a + d) - b) with ((fl (a + d) - (a + d)) + (d - (b - a))) by ring. eapply Rle_trans; [apply Rabs_triang|]. unfold step_error. fold eta.
  assert (u * (u * (2 * m)) <= 1 / 1000000 * (u * (2 * m))) by (apply Rmult_le_compat_r; [apply Rmult_le_pos; lra|lra]). assert (u * eta <= 1 / 1000000 * eta) by (apply Rmult_le_compat_r; lra). assert (0 <= u * m) by (apply Rmult_le_pos; lra). lra.
Qed.
Lemma between_ge t a b l m : 0 <= t <= 1 -> is_double a -> Rabs a <= m -> Rabs b <= m -> l <= a -> l <= b -> l - step_error m <= between_d t a b.
Proof.
  intros T D A B La Lb. pose proof (end_error a b m A B) as E. apply Rabs_le_inv in E. assert (0 <= step_error m) by lra. destruct (Rle_lt_dec a b) as [L|L]; [pose proof (between_up t a b T D L)|pose proof (between_down t a b T D ltac:(lra))]; lra.
Qed.
Lemma between_le t a b h m : 0 <= t <= 1 -> is_double a -> Rabs a <= m -> Rabs b <= m -> a <= h -> b <= h -> between_d t a b <= h + step_error m.
Proof.
  intros T D A B La Lb. pose proof (end_error a b m A B) as E. apply Rabs_le_inv in E. assert (0 <= step_error m) by lra. destruct (Rle_lt_dec a b) as [L|L]; [pose proof (between_up t a b T D L)|pose proof (between_down t a b T D ltac:(lra))]; lra.
Qed.

(** ** The intersection point. *)
Lemma at_set a b x p : at_ b (set_at a x p) = x /\ a = b \/ at_ b (set_at a x p) = at_ b p /\ a <> b.
Proof. destruct a, b; cbn; (left; split; reflexivity) || (right; split; [reflexivity|discriminate]). Qed.
Lemma crossing_cases a b k pos : apart pos (at_ (axis_of k) a) (at_ (axis_of k) b) -> exists t p, 0 <= t <= 1 /\ find_intersection_d a b k pos = Done p /\
  Rabs (at_ (axis_of k) p - pos) <= wide_tol /\ forall d, at_ d p = between_d t (at_ d a) (at_ d b) \/ (at_ d p = pos /\ d = axis_of k).
Proof.
  intros P. pose proof (param_range _ _ _ P) as T. unfold ClipRoundModel.find_intersection_d. set (t := fl (fl (pos - _) / _)) in *. exists t. destruct (Rle_dec 0 t) as [_|N]; [|lra]. destruct (Rle_dec t 1) as [_|N]; [|lra].
  set (ret := Pt _ _ _). assert (Hr : forall d, at_ d ret = between_d t (at_ d a) (at_ d b)) by (intros []; reflexivity).
  assert (W : 0 <= wide_tol) by (pose proof zerotol_pos; unfold wide_tol, plane_tol; lra). pose proof zerotol_range as Z. pose proof zerotol_close as C. pose proof tol_close as TC. pose proof zerotol_pos as ZP.
  assert (S0 : forall d, at_ d (set_at (axis_of k) pos ret) = between_d t (at_ d a) (at_ d b) \/ (at_ d (set_at (axis_of k) pos ret) = pos /\ d = axis_of k)).
  { intros d. destruct (at_set (axis_of k) d pos ret) as [[E Ed]|[E Ed]]; [right; split; congruence|left; rewrite E; apply Hr]. }
  assert (S1 : Rabs (at_ (axis_of k) (set_at (axis_of k) pos ret) - pos) <= wide_tol).
  { destruct (at_set (axis_of k) (axis_of k) pos ret) as [[E Ed]|[E Ed]]; [|congruence]. rewrite E, Rminus_eq_0, Rabs_R0. exact W. }
  destruct (classify_d k pos zerotol_d ret) eqn:Cl; eexists; (split; [exact T|split; [reflexivity|split]]); try exact S1; try exact S0.
  - apply (on_near k pos zerotol_d); [unfold plane_tol in TC; lra|exact Cl].
  - intros d. left. apply Hr.
Qed.

(** ** Where the vertices come from. *)
(** b follows a in the closed polygon. *)
Definition follows (prev : list cvert) (a b : cvert) : Prop := (exists l r, prev = l ++ a :: b :: r) \/ (exists l r, prev = l ++ [a] /\ prev = b :: r).
Lemma follows_in prev a b : follows prev a b -> In a prev /\ In b prev.
Proof. intros [(l & r & ->)|(l & r & E & E')]; split; try (rewrite E; apply in_or_app; right; left; reflexivity); try (rewrite E'; left; reflexivity); apply in_or_app; right; cbn; auto. Qed.
Inductive origin (k : nat) (pos : R) (prev : list cvert) : cvert -> Prop :=
| from_behind v : In v prev -> classify_d k pos plane_tol_d (c_pos v) = Behind -> origin k pos prev v
| from_on v : In v prev -> classify_d k pos plane_tol_d (c_pos v) = On -> origin k pos prev (set_on k v)
| from_cross a b p : In a prev -> In b prev -> follows prev a b -> opposite (classify_d k pos plane_tol_d (c_pos a)) (classify_d k pos plane_tol_d (c_pos b)) ->
    find_intersection_d (c_pos a) (c_pos b) k pos = Done p -> origin k pos prev (set_on k (CV p (shared_on k a b))).
Definition fine {A} (P : A -> Prop) (x : outcome A) : Prop := match x with Done a => P a | NoIntersection => False | Full => True end.
Lemma fine_then {A B} (P : A -> Prop) (Q : B -> Prop) x (f : A -> outcome B) : fine P x -> (forall a, P a -> fine Q (f a)) -> fine Q (then_ x f).
Proof. destruct x; cbn; intros H K; [apply K, H|destruct H|exact I]. Qed.
Lemma add_fine (P : cvert -> Prop) v cur : P v -> Forall P cur -> fine (Forall P) (poly_add_d v cur).
Proof. intros H K. unfold poly_add_d. destruct (poly_size <=? length cur)%nat; [exact I|]. cbn. apply Forall_app. split; [exact K|constructor; [exact H|constructor]]. Qed.
Lemma crossing_fine k pos prev a b cur : In a prev -> In b prev -> follows prev a b -> opposite (classify_d k pos plane_tol_d (c_pos a)) (classify_d k pos plane_tol_d (c_pos b)) ->
  Forall (origin k pos prev) cur -> fine (Forall (origin k pos prev)) (add_crossing_d k pos a b cur).
Proof.
  intros Ia Ib Fo O F. destruct (crossing_cases (c_pos a) (c_pos b) k pos) as (t & p & _ & E & _). { eapply opposite_apart; [exact tol_pos_d|exact O]. }
  unfold ClipRoundModel.add_crossing_d. rewrite E. cbn [then_]. apply add_fine; [|exact F]. eapply from_cross; eassumption.
Qed.
Lemma edge_fine k pos prev a b cur : In a prev -> In b prev -> follows prev a b -> Forall (origin k pos prev) cur -> fine (Forall (origin k pos prev)) (clip_edge_d k pos a b cur).
Proof.
  intros Ia Ib Fo F. unfold ClipRoundModel.clip_edge_d.
  destruct (classify_d k pos plane_tol_d (c_pos b)) eqn:B, (classify_d k pos plane_tol_d (c_pos a)) eqn:A; try exact F.
  - apply (crossing_fine k pos prev); try assumption. rewrite A, B. right; split; reflexivity.
  - eapply fine_then; [apply (crossing_fine k pos prev); try assumption; rewrite A, B; left; split; reflexivity|]. intros c Fc. apply add_fine; [apply from_behind; assumption|exact Fc].
  - apply add_fine; [apply from_behind; assumption|exact F].
  - eapply fine_then; [apply add_fine; [apply (from_on k pos prev a); assumption|exact F]|]. intros c Fc. apply add_fine; [apply from_behind; assumption|exact Fc].
  - apply add_fine; [apply from_on; assumption|exact F].
Qed.
Lemma loop_fine k pos prev l : forall a cur pre, prev = pre ++ l -> (pre = [] -> exists q, prev = q ++ [a]) -> (pre <> [] -> exists q, pre = q ++ [a]) -> Forall (origin k pos prev) cur -> fine (Forall (origin k pos prev)) (clip_loop_d k pos a l cur).
Proof.
  induction l as [|b l IH]; intros a cur pre Ep S0 S1 F; cbn [ClipRoundModel.clip_loop_d]; [exact F|].
  assert (Fo : follows prev a b). { destruct pre as [|x pre]; [right; destruct (S0 eq_refl) as (q & Eq); exists q, l; split; [exact Eq|exact Ep]|left; destruct (S1 ltac:(discriminate)) as (q & Eq); exists q, l; rewrite Ep, Eq, <- app_assoc; reflexivity]. }
  destruct (follows_in _ _ _ Fo) as [Ia Ib]. eapply fine_then; [apply edge_fine; [exact Ia|exact Ib|exact Fo|exact F]|]. intros c Fc. apply (IH b c (pre ++ [b])); [rewrite <- app_assoc; exact Ep|intros E; destruct pre; discriminate|intros _; exists pre; reflexivity|exact Fc].
Qed.
Lemma last_in {A} (l : list A) d : l <> [] -> In (last l d) l.
Proof. induction l as [|x l IH]; intros N; [congruence|]. destruct l as [|y l]; [left; reflexivity|]. right. apply IH. discriminate. Qed.
Lemma last_app {A} (l : list A) d : l <> [] -> exists q, l = q ++ [last l d].
Proof. intros N. exists (removelast l). apply app_removelast_last, N. Qed.
Lemma polygon_fine k pos prev : fine (Forall (origin k pos prev)) (clip_polygon_d k pos prev).
Proof.
  unfold ClipRoundModel.clip_polygon_d. destruct prev as [|v l] eqn:E; [constructor|]. rewrite <- E. apply (loop_fine k pos prev prev _ [] []); [reflexivity|intros _; apply last_app; rewrite E; discriminate|congruence|constructor].
Qed.
(** Vertices behind the plane are kept. *)
Lemma add_in v cur r w : poly_add_d v cur = Done r -> (In w cur \/ w = v) -> In w r.
Proof. unfold poly_add_d. destruct (poly_size <=? length cur)%nat; intros E; [discriminate|]. injection E as <-. intros [H | ->]; apply in_or_app; [left; exact H|right; left; reflexivity]. Qed.
Lemma edge_in k pos a b cur r w : clip_edge_d k pos a b cur = Done r -> (In w cur \/ (w = b /\ classify_d k pos plane_tol_d (c_pos b) = Behind)) -> In w r.
Proof.
  unfold ClipRoundModel.clip_edge_d, ClipRoundModel.add_crossing_d. intros E H. destruct (classify_d k pos plane_tol_d (c_pos b)) eqn:B, (classify_d k pos plane_tol_d (c_pos a)) eqn:A;
    try (destruct (find_intersection_d _ _ _ _); cbn [then_] in E; [|discriminate|discriminate]); try (injection E as <-; destruct H as [H|[_ H]]; [exact H|discriminate]).
  - eapply add_in; [exact E|]. destruct H as [H|[_ H]]; [left; exact H|discriminate].
  - destruct (poly_add_d _ cur) as [c| |] eqn:E1; cbn [then_] in E; try discriminate. eapply add_in; [exact E|]. destruct H as [H|[H _]]; [left; eapply add_in; [exact E1|left; exact H]|right; exact H].
  - eapply add_in; [exact E|]. destruct H as [H|[H _]]; [left; exact H|right; exact H].
  - destruct (poly_add_d _ cur) as [c| |] eqn:E1; cbn [then_] in E; try discriminate. eapply add_in; [exact E|]. destruct H as [H|[H _]]; [left; eapply add_in; [exact E1|left; exact H]|right; exact H].
  - eapply add_in; [exact E|]. destruct H as [H|[_ H]]; [left; exact H|discriminate].
Qed.
Lemma loop_in k pos l : forall a cur r w, clip_loop_d k pos a l cur = Done r -> (In w cur \/ (In w l /\ classify_d k pos plane_tol_d (c_pos w) = Behind)) -> In w r.
Proof.
  induction l as [|b l IH]; intros a cur r w E H; cbn [ClipRoundModel.clip_loop_d] in E; [injection E as <-; destruct H as [H|[[] _]]; exact H|]. destruct (clip_edge_d k pos a b cur) as [c| |] eqn:E1; cbn [then_] in E; try discriminate.
  eapply IH; [exact E|]. destruct H as [H|[[<-|H] B]]; [left; eapply edge_in; [exact E1|left; exact H]|left; eapply edge_in; [exact E1|right; split; [reflexivity|exact B]]|right; split; assumption].
Qed.
Lemma polygon_in k pos prev cur w : clip_polygon_d k pos prev = Done cur -> In w prev -> classify_d k pos plane_tol_d (c_pos w) = Behind -> In w cur.
Proof. unfold ClipRoundModel.clip_polygon_d. destruct prev as [|v l] eqn:E; intros H I B; [destruct I|]. rewrite <- E in *. eapply loop_in; [exact H|]. right. split; assumption. Qed.

(** ** Bounds of coordinates. *)
Section Bounds.
Variable m : axis -> R.
Definition sane (v : cvert) : Prop := forall d, is_double (at_ d (c_pos v)) /\ Rabs (at_ d (c_pos v)) <= m d.
Lemma origin_ge k pos prev d l v : Forall sane prev -> Forall (fun v => l <= at_ d (c_pos v)) prev -> origin k pos prev v -> l - step_error (m d) <= at_ d (c_pos v).
Proof.
  intros S F O. rewrite Forall_forall in S, F. assert (Z : forall v, In v prev -> l - step_error (m d) <= at_ d (c_pos v)).
  { intros w I. specialize (F w I). cbn in F. specialize (S w I d). pose proof (Rabs_pos (at_ d (c_pos w))). pose proof u_small. pose proof tiny_pos. unfold step_error. assert (0 <= u * m d) by (apply Rmult_le_pos; lra). lra. }
  destruct O as [v I _|v I _|a b p Ia Ib Fo Op E]; cbn [set_on c_pos]; try (apply Z; assumption). pose proof (opposite_apart _ _ _ _ _ tol_pos_d Op) as Ap.
  destruct (crossing_cases _ _ _ _ Ap) as (t & p' & T & E' & _ & C). rewrite E in E'. injection E' as <-. destruct (C d) as [->|[-> ->]].
  - apply between_ge; try exact T; try apply (S a Ia d); try apply (S b Ib d); [apply (F a Ia)|apply (F b Ib)].
  - pose proof (F a Ia). pose proof (F b Ib). pose proof (Z a Ia). pose proof (Z b Ib). cbn in *. destruct Ap as [[Ap _]|[Ap _]]; lra.
Qed.
Lemma origin_le k pos prev d h v : Forall sane prev -> Forall (fun v => at_ d (c_pos v) <= h) prev -> origin k pos prev v -> at_ d (c_pos v) <= h + step_error (m d).
Proof.
  intros S F O. rewrite Forall_forall in S, F. assert (Z : forall v, In v prev -> at_ d (c_pos v) <= h + step_error (m d)).
  { intros w I. specialize (F w I). cbn in F. specialize (S w I d). pose proof (Rabs_pos (at_ d (c_pos w))). pose proof u_small. pose proof tiny_pos. unfold step_error. assert (0 <= u * m d) by (apply Rmult_le_pos; lra). lra. }
  destruct O as [v I _|v I _|a b p Ia Ib Fo Op E]; cbn [set_on c_pos]; try (apply Z; assumption). pose proof (opposite_apart _ _ _ _ _ tol_pos_d Op) as Ap.
  destruct (crossing_cases _ _ _ _ Ap) as (t & p' & T & E' & _ & C). rewrite E in E'. injection E' as <-. destruct (C d) as [->|[-> ->]].
  - apply between_le; try exact T; try apply (S a Ia d); try apply (S b Ib d); [apply (F a Ia)|apply (F b Ib)].
  - pose proof (F a Ia). pose proof (F b Ib). pose proof (Z a Ia). pose proof (Z b Ib). cbn in *. destruct Ap as [[Ap _]|[Ap _]]; lra.
Qed.
Lemma origin_double k pos prev v : is_double pos -> Forall sane prev -> origin k pos prev v -> forall d, is_double (at_ d (c_pos v)).
Proof.
  intros D S O d. rewrite Forall_forall in S. destruct O as [v I _|v I _|a b p Ia Ib Fo Op E]; cbn [set_on c_pos]; try apply (S v I d). destruct (crossing_cases _ _ _ _ (opposite_apart _ _ _ _ _ tol_pos_d Op)) as (t & p' & T & E' & _ & C). rewrite E in E'. injection E' as <-. destruct (C d) as [->|[-> ->]]; [apply between_double|exact D].
Qed.
(** The half space of the plane. *)
Lemma origin_side k pos prev v : origin k pos prev v -> if Nat.even k then pos - wide_tol <= at_ (axis_of k) (c_pos v) else at_ (axis_of k) (c_pos v) <= pos + wide_tol.
Proof.
  intros O. assert (W : 0 <= wide_tol) by (pose proof zerotol_pos; unfold wide_tol, plane_tol; lra). assert (Z : Rabs (at_ (axis_of k) (c_pos v) - pos) <= wide_tol -> if Nat.even k then pos - wide_tol <= at_ (axis_of k) (c_pos v) else at_ (axis_of k) (c_pos v) <= pos + wide_tol) by (intros H; apply Rabs_le_inv in H; destruct (Nat.even k); lra).
  destruct O as [v I B|v I B|a b p Ia Ib Fo Op E].
  - apply behind_d in B. unfold plane_dist_d in B. pose proof tol_pos_d. destruct (Nat.even k).
    + pose proof (fl_neg (pos - at_ (axis_of k) (c_pos v)) ltac:(lra)). lra.
    + pose proof (fl_neg (at_ (axis_of k) (c_pos v) - pos) ltac:(lra)). lra.
  - apply Z. cbn [set_on c_pos]. apply (on_near k pos plane_tol_d); [lra|exact B].
  - apply Z. cbn [set_on c_pos]. destruct (crossing_cases _ _ _ _ (opposite_apart _ _ _ _ _ tol_pos_d Op)) as (t & p' & T & E' & N & C). rewrite E in E'. injection E' as <-. exact N.
Qed.
(** The marks. *)
Lemma origin_marks (pp : nat -> R) k prev (s : axis -> R) v : (forall d, 0 <= s d) -> Forall sane prev -> Forall (fun v => forall j, c_on v j = true -> (j < 6)%nat /\ Rabs (at_ (axis_of j) (c_pos v) - pp j) <= wide_tol + s (axis_of j)) prev -> (k < 6)%nat ->
  origin k (pp k) prev v -> forall j, c_on v j = true -> (j < 6)%nat /\ Rabs (at_ (axis_of j) (c_pos v) - pp j) <= wide_tol + s (axis_of j) + step_error (m (axis_of j)).
Proof.
  intros Hs S F Hk O j M. pose proof (Hs (axis_of j)) as Hsj. assert (P : forall w, In w prev -> forall d, 0 <= step_error (m d)).
  { intros w I d. rewrite Forall_forall in S. specialize (S w I d). pose proof (Rabs_pos (at_ d (c_pos w))). pose proof u_small. pose proof tiny_pos. unfold step_error. assert (0 <= u * m d) by (apply Rmult_le_pos; lra). lra. }
  pose proof S as S'. rewrite Forall_forall in S', F. destruct O as [v I B|v I B|a b p Ia Ib Fo Op E].
  - destruct (F v I j M) as [Hj N]. pose proof (P v I (axis_of j)). split; [exact Hj|lra].
  - cbn [set_on c_pos c_on] in M |- *. destruct (Nat.eqb_spec j k) as [Ejk|Nj]; [rewrite Ejk in *; clear Ejk|].
    + split; [exact Hk|]. pose proof (on_near k (pp k) plane_tol_d (c_pos v) ltac:(lra) B). pose proof (P v I (axis_of k)). lra.
    + destruct (F v I j M) as [Hj N]. pose proof (P v I (axis_of j)). split; [exact Hj|lra].
  - pose proof (opposite_apart _ _ _ _ _ tol_pos_d Op) as Ap. destruct (crossing_cases _ _ _ _ Ap) as (t & p' & T & E' & N & C). rewrite E in E'. injection E' as <-.
    cbn [set_on c_pos c_on] in M |- *. destruct (Nat.eqb_spec j k) as [Ejk|Nj]; [rewrite Ejk in *; clear Ejk|].
    + split; [exact Hk|]. pose proof (P a Ia (axis_of k)). lra.
    + assert (Ij : j <> k) by exact Nj. cbn [orb] in M. unfold shared_on in M. apply andb_true_iff in M as [M Mb]. apply andb_true_iff in M as [_ Ma]. destruct (F a Ia j Ma) as [Hj Na]. destruct (F b Ib j Mb) as [_ Nb]. split; [exact Hj|]. apply Rabs_le_inv in Na. apply Rabs_le_inv in Nb. pose proof (P a Ia (axis_of j)) as Pj. apply Rabs_le.
      destruct (C (axis_of j)) as [->|[-> Ej]].
      * pose proof (between_ge t _ _ (pp j - (wide_tol + s (axis_of j))) (m (axis_of j)) T (proj1 (S' a Ia (axis_of j))) (proj2 (S' a Ia _)) (proj2 (S' b Ib _)) ltac:(lra) ltac:(lra)).
        pose proof (between_le t _ _ (pp j + (wide_tol + s (axis_of j))) (m (axis_of j)) T (proj1 (S' a Ia (axis_of j))) (proj2 (S' a Ia _)) (proj2 (S' b Ib _)) ltac:(lra) ltac:(lra)). lra.
      * rewrite <- Ej in Ap. destruct Ap as [[Ap _]|[Ap _]]; lra.
Qed.
End Bounds.
(** ** Accuracy of the intersection point. *)
Lemma ratio_error n d N D : 0 < Rabs D -> Rabs (n - N) <= 11 / 10 * u * Rabs D -> Rabs (d - D) <= 11 / 10 * u * Rabs D -> Rabs N <= Rabs D -> Rabs (n / d - N / D) <= 23 / 10 * u.
Proof.
  intros HD Hn Hd HN. pose proof u_small as U. assert (Hd0 : 999 / 1000 * Rabs D <= Rabs d). { assert (T : Rabs D <= Rabs d + Rabs (d - D)) by (replace D with (d - (d - D)) at 1 by ring; eapply Rle_trans; [apply Rabs_triang|]; rewrite Rabs_Ropp; lra). assert (11 / 10 * u * Rabs D <= 1 / 1000 * Rabs D) by (apply Rmult_le_compat_r; lra). lra. }
  assert (D0 : D <> 0) by (intros ->; rewrite Rabs_R0 in HD; lra). assert (d0 : d <> 0) by (intros ->; rewrite Rabs_R0 in Hd0; lra).
  replace (n / d - N / D) with (((n - N) * D - N * (d - D)) / (d * D)) by (field; auto). unfold Rdiv. rewrite Rabs_mult, Rabs_inv, Rabs_mult.
  apply Rmult_le_reg_r with (Rabs d * Rabs D); [apply Rmult_lt_0_compat; lra|]. rewrite Rmult_assoc, Rinv_l by (apply Rmult_integral_contrapositive_currified; lra). rewrite Rmult_1_r.
  assert (A : Rabs ((n - N) * D - N * (d - D)) <= 22 / 10 * u * Rabs D * Rabs D).
  { eapply Rle_trans; [apply Rabs_triang|]. rewrite Rabs_Ropp, !Rabs_mult. pose proof (Rmult_le_compat_r (Rabs D) _ _ ltac:(lra) Hn). pose proof (Rmult_le_compat (Rabs N) (Rabs D) (Rabs (d - D)) _ (Rabs_pos _) (Rabs_pos _) HN Hd). lra. }
  eapply Rle_trans; [exact A|]. assert (B : 0 <= u * Rabs D * (Rabs d - 999 / 1000 * Rabs D)) by (repeat apply Rmult_le_pos; lra). assert (C : 0 <= u * Rabs D * Rabs D) by (repeat apply Rmult_le_pos; lra). lra.
Qed.
Lemma fl_rel_abs x m : Rabs x <= m -> bpow radix2 (-1000) <= m -> Rabs (fl x - x) <= 11 / 10 * u * m.
Proof.
  intros H L. pose proof (fl_abs x) as E. pose proof u_small as U. assert (S : bpow radix2 (-1074) <= / 10 * u * m).
  { apply Rle_trans with (/ 10 * u * bpow radix2 (-1000)); [|apply Rmult_le_compat_l; lra]. replace (bpow radix2 (-1074)) with (bpow radix2 (-1000) * bpow radix2 (-74)) by (rewrite <- bpow_plus; reflexivity). rewrite (Rmult_comm (bpow radix2 (-1000))). apply Rmult_le_compat_r; [apply bpow_ge_0|]. unfold u. cbn. lra. }
  assert (u * Rabs x <= u * m) by (apply Rmult_le_compat_l; lra). lra.
Qed.
Lemma param_error pos a b : apart pos a b -> plane_tol / 2 <= Rabs (pos - a) -> Rabs (fl (fl (pos - a) / fl (b - a)) - (pos - a) / (b - a)) <= 4 * u.
Proof.
  intros Ap Hm. assert (HN : Rabs (pos - a) <= Rabs (b - a)). { destruct Ap as [[Ap _]|[Ap _]]; [rewrite !Rabs_pos_eq by lra|rewrite !Rabs_left by lra]; lra. }
  assert (Hb : bpow radix2 (-1000) <= Rabs (b - a)). { eapply Rle_trans; [|exact HN]. eapply Rle_trans; [|exact Hm]. apply Rle_trans with (bpow radix2 (-47)); [apply bpow_le; lia|]. unfold plane_tol, zerotol. cbn. lra. }
  pose proof (fl_rel_abs (pos - a) (Rabs (b - a)) HN Hb) as E1. pose proof (fl_rel_abs (b - a) (Rabs (b - a)) (Rle_refl _) Hb) as E2. pose proof (bpow_gt_0 radix2 (-1000)). assert (Hp : 0 < Rabs (b - a)) by lra.
  pose proof (ratio_error _ _ _ _ Hp E1 E2 HN) as E3. pose proof (fl_abs (fl (pos - a) / fl (b - a))) as E4. pose proof u_small as U.
  assert (T : 0 <= (pos - a) / (b - a) <= 1). { replace ((pos - a) / (b - a)) with (Rabs (pos - a) / Rabs (b - a)). - split; [apply Rmult_le_pos; [apply Rabs_pos|left; apply Rinv_0_lt_compat; lra]|apply Rmult_le_reg_r with (Rabs (b - a)); [lra|]; unfold Rdiv; rewrite Rmult_assoc, Rinv_l by lra; lra]. - destruct Ap as [[Ap _]|[Ap _]]; [rewrite !Rabs_pos_eq by lra; reflexivity|rewrite !Rabs_left by lra; field; lra]. }
  set (q := fl (pos - a) / fl (b - a)) in *. set (r := (pos - a) / (b - a)) in *. assert (Q : Rabs q <= 1 + 23 / 10 * u). { replace q with (r + (q - r)) by ring. eapply Rle_trans; [apply Rabs_triang|]. rewrite (Rabs_pos_eq r) by lra. lra. }
  assert (u * Rabs q <= u * (1 + 23 / 10 * u)) by (apply Rmult_le_compat_l; lra). assert (u * u <= 1 / 1000000 * u) by (apply Rmult_le_compat_r; lra). assert (bpow radix2 (-1074) <= / 10 * u). { apply Rle_trans with (bpow radix2 (-57)); [apply bpow_le; lia|]. unfold u. cbn. lra. }
  replace (fl q - r) with ((fl q - q) + (q - r)) by ring. eapply Rle_trans; [apply Rabs_triang|]. lra.
Qed.
Lemma between_error t s a b m : 0 <= s <= 1 -> Rabs (t - s) <= 4 * u -> Rabs a <= m -> Rabs b <= m -> Rabs (between_d t a b - (a + s * (b - a))) <= 16 * u * m + 16 * bpow radix2 (-1074).
Proof.
  intros Hs Ht A B. pose proof u_small as U. pose proof tiny_pos as T. set (eta := bpow radix2 (-1074)) in *. assert (M : 0 <= m) by (pose proof (Rabs_pos a); lra). assert (Hd : Rabs (b - a) <= 2 * m). { eapply Rle_trans; [apply Rabs_triang|]. rewrite Rabs_Ropp. lra. }
  pose proof (fl_abs (b - a)) as E1. fold eta in E1. assert (E1' : Rabs (fl (b - a) - (b - a)) <= u * (2 * m) + eta) by (eapply Rle_trans; [exact E1|]; apply Rplus_le_compat_r, Rmult_le_compat_l; lra).
  unfold ClipRoundModel.between_d. set (d := fl (b - a)) in *. set (D := b - a) in *. assert (UM : 0 <= u * m) by (apply Rmult_le_pos; lra). assert (UU : u * (u * m) <= 1 / 1000000 * (u * m)) by (apply Rmult_le_compat_r; lra). assert (UE : u * eta <= 1 / 1000000 * eta) by (apply Rmult_le_compat_r; lra). assert (UM' : u * m <= 1 / 1000000 * m) by (apply Rmult_le_compat_r; lra).
  assert (Dd : Rabs d <= 2 * m + u * (2 * m) + eta). { replace d with (D + (d - D)) by ring. eapply Rle_trans; [apply Rabs_triang|]. lra. }
  assert (P : Rabs (t * d - s * D) <= 4 * u * (2 * m + u * (2 * m) + eta) + (u * (2 * m) + eta)).
  { replace (t * d - s * D) with ((t - s) * d + s * (d - D)) by ring. eapply Rle_trans; [apply Rabs_triang|]. rewrite !Rabs_mult, (Rabs_pos_eq s) by lra. apply Rplus_le_compat; [apply Rmult_le_compat; try apply Rabs_pos; assumption|]. rewrite <- (Rmult_1_l (u * (2 * m) + eta)). apply Rmult_le_compat; try apply Rabs_pos; lra. }
  assert (SD : Rabs (s * D) <= 2 * m). { rewrite Rabs_mult, (Rabs_pos_eq s) by lra. rewrite <- (Rmult_1_l (2 * m)). apply Rmult_le_compat; try apply Rabs_pos; lra. }
  assert (P2 : Rabs (t * d - s * D) <= 101 / 10 * (u * m) + 2 * eta) by lra.
  assert (TD : Rabs (t * d) <= 21 / 10 * m + 2 * eta). { replace (t * d) with (s * D + (t * d - s * D)) by ring. eapply Rle_trans; [apply Rabs_triang|]. lra. }
  pose proof (fl_abs (t * d)) as E2. fold eta in E2. assert (E2' : Rabs (fl (t * d) - t * d) <= u * (21 / 10 * m + 2 * eta) + eta) by (eapply Rle_trans; [exact E2|]; apply Rplus_le_compat_r, Rmult_le_compat_l; lra).
  assert (W : Rabs ((if contract then t * d else fl (t * d)) - s * D) <= 123 / 10 * (u * m) + 4 * eta). { destruct contract; [lra|]. replace (fl (t * d) - s * D) with ((fl (t * d) - t * d) + (t * d - s * D)) by ring. eapply Rle_trans; [apply Rabs_triang|]. lra. }
  set (w := if contract then _ else _) in *. assert (Sw : Rabs (a + w) <= 31 / 10 * m + 4 * eta). { replace (a + w) with (a + s * D + (w - s * D)) by ring. eapply Rle_trans; [apply Rabs_triang|]. pose proof (Rabs_triang a (s * D)). lra. }
  pose proof (fl_abs (a + w)) as E3. fold eta in E3. assert (E3' : Rabs (fl (a + w) - (a + w)) <= u * (31 / 10 * m + 4 * eta) + eta) by (eapply Rle_trans; [exact E3|]; apply Rplus_le_compat_r, Rmult_le_compat_l; lra).
  replace (fl (a + w) - (a + s * D)) with ((fl (a + w) - (a + w)) + (w - s * D)) by ring. eapply Rle_trans; [apply Rabs_triang|]. lra.
Qed.
(** Points in front of or behind the plane have a distance to it. *)
Lemma far_d k pos p : classify_d k pos plane_tol_d p <> On -> plane_tol / 2 <= Rabs (pos - at_ (axis_of k) p).
Proof.
  intros H. assert (A : plane_tol_d <= Rabs (fl (pos - at_ (axis_of k) p))).
  { unfold classify_d, plane_dist_d in H. rewrite (flip pos) in H. pose proof tol_pos_d. destruct (Nat.even k); (destruct (Rlt_dec _ _) as [L|L]; [|destruct (Rlt_dec _ _) as [L'|L']; [|congruence]]).
    all: unfold Rabs; destruct (Rcase_abs _); lra. }
  pose proof (fl_abs (pos - at_ (axis_of k) p)) as E. set (x := pos - at_ (axis_of k) p) in *. pose proof tol_close. pose proof eta_tol. pose proof u_small as U. pose proof (Rabs_pos x). assert (u * Rabs x <= 1 / 1000000 * Rabs x) by (apply Rmult_le_compat_r; lra).
  assert (T : Rabs (fl x) <= Rabs x + Rabs (fl x - x)). { replace (fl x) with (x + (fl x - x)) at 1 by ring. apply Rabs_triang. } pose proof zerotol_pos. unfold plane_tol in *. lra.
Qed.
Lemma crossing_exact k pos a b p : opposite (classify_d k pos plane_tol_d a) (classify_d k pos plane_tol_d b) -> find_intersection_d a b k pos = Done p ->
  let s := (pos - at_ (axis_of k) a) / (at_ (axis_of k) b - at_ (axis_of k) a) in 0 <= s <= 1 /\ at_ (axis_of k) a + s * (at_ (axis_of k) b - at_ (axis_of k) a) = pos /\
  forall d m, Rabs (at_ d a) <= m -> Rabs (at_ d b) <= m -> Rabs (at_ d p - (at_ d a + s * (at_ d b - at_ d a))) <= 16 * u * m + 16 * bpow radix2 (-1074).
Proof.
  intros Op E s. pose proof (opposite_apart _ _ _ _ _ tol_pos_d Op) as Ap. set (x := at_ (axis_of k) a) in *. set (y := at_ (axis_of k) b) in *. assert (Nz : y - x <> 0) by (destruct Ap as [[Ap _]|[Ap _]]; lra).
  assert (Hs : 0 <= s <= 1). { unfold s. destruct Ap as [[Ap _]|[Ap _]].
    - split; [apply Rlt_le, Rdiv_lt_0_compat; lra|]. apply Rmult_le_reg_r with (y - x); [lra|]. unfold Rdiv. rewrite Rmult_assoc, Rinv_l by lra. lra.
    - replace ((pos - x) / (y - x)) with ((x - pos) / (x - y)) by (field; lra). split; [apply Rlt_le, Rdiv_lt_0_compat; lra|]. apply Rmult_le_reg_r with (x - y); [lra|]. unfold Rdiv. rewrite Rmult_assoc, Rinv_l by lra. lra. }
  assert (Ex : x + s * (y - x) = pos) by (unfold s; field; exact Nz). split; [exact Hs|split; [exact Ex|]].
  assert (Hf : classify_d k pos plane_tol_d a <> On) by (destruct Op as [[-> _]|[-> _]]; discriminate). pose proof (param_error pos x y Ap (far_d k pos a Hf)) as Pe. fold s in Pe.
  intros d m A B. pose proof u_small as U. pose proof tiny_pos. assert (M : 0 <= m) by (pose proof (Rabs_pos (at_ d a)); lra). assert (UM : 0 <= u * m) by (apply Rmult_le_pos; lra).
  unfold ClipRoundModel.find_intersection_d in E. fold x y in E. set (t := fl (fl (pos - x) / fl (y - x))) in *. destruct (if Rle_dec 0 t then _ else _); [|discriminate]. injection E as <-. set (ret := Pt _ _ _). assert (Hr : forall d, at_ d ret = between_d t (at_ d a) (at_ d b)) by (intros []; reflexivity).
  assert (S0 : at_ d (set_at (axis_of k) pos ret) = at_ d ret \/ (at_ d (set_at (axis_of k) pos ret) = pos /\ d = axis_of k)) by (destruct (at_set (axis_of k) d pos ret) as [[E1 E2]|[E1 E2]]; [right; split; congruence|left; exact E1]).
  assert (Be := between_error t s (at_ d a) (at_ d b) m Hs Pe A B). destruct (classify_d k pos zerotol_d ret); [destruct S0 as [-> |[-> ->]]|destruct S0 as [-> |[-> ->]]|]; try (rewrite Hr; exact Be); fold x y; rewrite Ex, Rminus_eq_0, Rabs_R0; lra.
Qed.
(** ** Numbers of vertices. *)
Definition weight (k : nat) (pos : R) (v : cvert) : nat := match classify_d k pos plane_tol_d (c_pos v) with Behind => 1 | _ => 0 end.
Lemma add_room v cur : (length cur < 9)%nat -> poly_add_d v cur = Done (cur ++ [v]).
Proof. intros H. unfold poly_add_d, poly_size. destruct (Nat.leb_spec 9 (length cur)); [lia|reflexivity]. Qed.
Lemma crossing_room k pos a b cur : opposite (classify_d k pos plane_tol_d (c_pos a)) (classify_d k pos plane_tol_d (c_pos b)) -> (length cur < 9)%nat -> exists r, add_crossing_d k pos a b cur = Done r /\ length r = S (length cur).
Proof.
  intros O L. destruct (crossing_cases (c_pos a) (c_pos b) k pos) as (t & p & _ & E & _). { eapply opposite_apart; [exact tol_pos_d|exact O]. }
  unfold ClipRoundModel.add_crossing_d. rewrite E. cbn [then_]. rewrite add_room by exact L. eexists. split; [reflexivity|]. rewrite app_length. cbn. lia.
Qed.
Lemma edge_room k pos a b cur : (2 * length cur + 3 + weight k pos b <= 18 + weight k pos a)%nat ->
  exists r, clip_edge_d k pos a b cur = Done r /\ (2 * length r + weight k pos a <= 2 * length cur + 3 + weight k pos b)%nat.
Proof.
  unfold weight, ClipRoundModel.clip_edge_d. intros H. destruct (classify_d k pos plane_tol_d (c_pos b)) eqn:B, (classify_d k pos plane_tol_d (c_pos a)) eqn:A; try (eexists; split; [reflexivity|lia]).
  - destruct (crossing_room k pos a b cur) as (r & E & L); [rewrite A, B; right; split; reflexivity|lia|]. exists r. split; [exact E|lia].
  - destruct (crossing_room k pos a b cur) as (r & E & L); [rewrite A, B; left; split; reflexivity|lia|]. rewrite E. cbn [then_]. rewrite add_room by lia. eexists. split; [reflexivity|]. rewrite app_length. cbn. lia.
  - rewrite add_room by lia. eexists. split; [reflexivity|]. rewrite app_length. cbn. lia.
  - rewrite add_room by lia. cbn [then_]. rewrite add_room by (rewrite app_length; cbn; lia). eexists. split; [reflexivity|]. rewrite !app_length. cbn. lia.
  - rewrite add_room by lia. eexists. split; [reflexivity|]. rewrite app_length. cbn. lia.
Qed.
Lemma weight_le k pos v : (weight k pos v <= 1)%nat. Proof. unfold weight. destruct (classify_d _ _ _ _); lia. Qed.
Lemma loop_room k pos l : forall a cur, (2 * length cur + 3 * length l + weight k pos (last l a) <= 18 + weight k pos a)%nat ->
  exists r, clip_loop_d k pos a l cur = Done r /\ (2 * length r + weight k pos a <= 2 * length cur + 3 * length l + weight k pos (last l a))%nat.
Proof.
  induction l as [|b l IH]; intros a cur H; cbn [ClipRoundModel.clip_loop_d length] in *; [exists cur; split; [reflexivity|cbn [last] in *; lia]|].
  assert (El : last (b :: l) a = last l b) by (destruct l as [|c l]; [reflexivity|]; clear; revert c; induction l as [|d l IHl]; intros c; [reflexivity|apply IHl]). rewrite El in *.
  destruct (edge_room k pos a b cur) as (r & E & L). { pose proof (weight_le k pos b). destruct l as [|c l]; cbn [last length] in *; lia. }
  rewrite E. cbn [then_]. destruct (IH b r) as (q & Eq & Lq); [lia|]. exists q. split; [exact Eq|lia].
Qed.
Lemma polygon_room k pos prev : (length prev <= 6)%nat -> exists cur, clip_polygon_d k pos prev = Done cur /\ (2 * length cur <= 3 * length prev)%nat.
Proof.
  intros H. unfold ClipRoundModel.clip_polygon_d. destruct prev as [|v l] eqn:E; [exists []; split; [reflexivity|cbn; lia]|]. rewrite <- E in *.
  assert (El : last prev (last prev v) = last prev v) by (rewrite E; clear; revert v; induction l as [|b l IH]; intros v; [reflexivity|]; destruct l as [|c l]; [reflexivity|exact (IH v)]).
  destruct (loop_room k pos prev (last prev v) []) as (r & Er & L); [cbn [length]; rewrite El; lia|]. rewrite El in L. cbn [length] in L. exists r. split; [exact Er|lia].
Qed.
End Clip.
