(** Proofs about the B-spline volume: the splines of the three directions and their product. *)
From Coq Require Import Reals List Arith Bool ZArith Lia Lra Psatz.
From Verif Require Import Geo GridModel GridGeoModel MappingModel BSplineModel BSplineSpec BSplineProofs BSplineInsert.
Import ListNotations.
Local Open Scope R_scope.

(** *** The spline of one direction *)
Lemma arange_ok a b d m : d <> 0 -> INR m - 1 < (b - a) / d <= INR m -> arange a b d = Some (map (fun i => a + INR i * d) (seq 0 m)).
Proof.
  intros D H. unfold arange. destruct (Req_EM_T d 0); [contradiction|]. rewrite (ceil_between (Z.of_nat m)) by (rewrite <- INR_IZR_INZ; exact H). rewrite Nat2Z.id. reflexivity.
Qed.
Lemma nth_map_seq f m i : (i < m)%nat -> nth i (map f (seq 0 m)) 0 = f i.
Proof. intros H. rewrite (nth_indep _ 0 (f 0%nat)) by (rewrite map_length, seq_length; lia). rewrite map_nth, seq_nth by lia. reflexivity. Qed.
Lemma nth_repeat_lt (c : R) m i : (i < m)%nat -> nth i (repeat c m) 0 = c.
Proof. revert i. induction m as [|m IH]; intros i H; [lia|]. destruct i as [|i]; [reflexivity|]. cbn. apply IH. lia. Qed.
Lemma nd_repeat (c : R) m : nondecreasing (repeat c m) = true.
Proof. induction m as [|m IH]; [reflexivity|]. destruct m as [|m]; [reflexivity|]. cbn [repeat nondecreasing] in *. apply andb_true_iff. split; [apply rle_true; lra|exact IH]. Qed.
Section Direction.
Variable pad : list R -> list R.
Variables (p n : nat) (lx ux lu uu : R) (open : bool).
Let du := (uu - lu) / INR n.
Let dx := (ux - lx) / INR p.
Definition slope : R := (ux - lx) / (uu - lu).
Definition offset : R := lx - slope * lu.
Section Good.
Hypothesis Hp : (1 <= p)%nat.
Hypothesis Hn : (1 <= n)%nat.
Hypothesis Hu : lu < uu.
Hypothesis Hx : lx <> ux.
Let pre := if open then repeat lu (p + 1) else map (fun i => lu - (INR p - INR i) * du) (seq 0 (p + 1)).
Let post := if open then repeat uu (p + 1) else map (fun i => uu + INR i * du) (seq 0 (p + 1)).
Lemma ip : 0 < INR p. Proof. apply lt_0_INR. lia. Qed.
Lemma i_n : 0 < INR n. Proof. apply lt_0_INR. lia. Qed.
Lemma dup : 0 < du. Proof. apply Rdiv_lt_0_compat; [lra|apply i_n]. Qed.
Lemma ndu : INR n * du = uu - lu. Proof. unfold du. field. assert (H := i_n). lra. Qed.
Lemma pre_length : length pre = (p + 1)%nat.
Proof. unfold pre. destruct open; [apply repeat_length|rewrite map_length, seq_length; reflexivity]. Qed.
Lemma post_length : length post = (p + 1)%nat.
Proof. unfold post. destruct open; [apply repeat_length|rewrite map_length, seq_length; reflexivity]. Qed.
Lemma pre_at i : (i <= p)%nat -> at_list pre i = if open then lu else lu - (INR p - INR i) * du.
Proof. intros H. unfold at_list, pre. destruct open; [apply nth_repeat_lt; lia|apply nth_map_seq; lia]. Qed.
Lemma post_at i : (i <= p)%nat -> at_list post i = if open then uu else uu + INR i * du.
Proof. intros H. unfold at_list, post. destruct open; [apply nth_repeat_lt; lia|apply (nth_map_seq (fun i => uu + INR i * du)); lia]. Qed.
Lemma pre_nd : nondecreasing pre = true.
Proof. unfold pre. destruct open; [apply nd_repeat|]. apply nd_map. intros i. rewrite S_INR. assert (D := dup). lra. Qed.
Lemma post_nd : nondecreasing post = true.
Proof. unfold post. destruct open; [apply nd_repeat|]. apply (nd_map (fun i => uu + INR i * du)). intros i. rewrite S_INR. assert (D := dup). lra. Qed.
Lemma pre_in x : In x pre -> x <= lu.
Proof.
  unfold pre. destruct open; intros I; [apply repeat_spec in I; lra|]. apply in_map_iff in I as (i & <- & I). apply in_seq in I. assert (INR i <= INR p) by (apply le_INR; lia). assert (D := dup). nra.
Qed.
Lemma post_in x : In x post -> uu <= x.
Proof. unfold post. destruct open; intros I; [apply repeat_spec in I; lra|]. apply in_map_iff in I as (i & <- & I). assert (P := pos_INR i). assert (D := dup). nra. Qed.
Lemma pre_end : at_list pre p = lu.
Proof. rewrite pre_at by lia. destruct open; [reflexivity|lra]. Qed.
Lemma post_start : at_list post 0 = uu.
Proof. rewrite post_at by lia. destruct open; [reflexivity|cbn; lra]. Qed.
Lemma first_eq : first_knots p n lu uu open = knots n lu uu pre post 0.
Proof. unfold first_knots, knots, pre, post. cbn [seq map app]. destruct open; reflexivity. Qed.
Let cps := if open then map (fun i => lx + INR i * dx) (seq 0 (p + 1)) else map (fun v => v - (INR p - 1) * ((ux + lx) / 2 - v) / INR n) (map (fun i => lx + INR i * dx) (seq 0 (p + 1))).
Lemma cps_averaged : averaged offset slope (knots n lu uu pre post 0) cps p.
Proof.
  assert (Ip := ip). assert (In_ := i_n). assert (Lp := pre_length). assert (Lq := post_length).
  assert (Nn : bs_n (knots n lu uu pre post 0) p = (p + 1)%nat) by (rewrite (knots_n p n lu uu pre post Hp Hn Lp Lq); lia).
  split; [rewrite Nn; unfold cps; destruct open; rewrite ?map_length, ?seq_length; lia|]. intros i Hi. rewrite Nn in Hi.
  assert (Av : average (at_list (knots n lu uu pre post 0)) p i = (upto (p - i) (fun m => at_list pre (i + 1 + m)) + upto i (fun m => at_list post m)) / INR p).
  { unfold average. f_equal. replace p with ((p - i) + i)%nat at 1 by lia. rewrite upto_add. f_equal.
    - apply upto_ext. intros m Hm. apply (knots_pre p n lu uu pre post Hp Hn Lp Lq). lia.
    - apply upto_ext. intros m Hm. replace (i + 1 + (p - i + m))%nat with (p + 1 + 0 + m)%nat by lia. apply (knots_post p n lu uu pre post Hp Hn Lp Lq). }
  assert (Ii : INR (p - i) = INR p - INR i) by (apply minus_INR; lia).
  assert (E : at_list cps i = if open then lx + INR i * dx else lx + INR i * dx - (INR p - 1) * ((ux + lx) / 2 - (lx + INR i * dx)) / INR n).
  { unfold at_list, cps. destruct open; [apply (nth_map_seq (fun i => lx + INR i * dx)); lia|]. rewrite map_map. apply (nth_map_seq (fun x => lx + INR x * dx - (INR p - 1) * ((ux + lx) / 2 - (lx + INR x * dx)) / INR n)). lia. }
  change (nth i cps 0) with (at_list cps i). rewrite E, Av. clear E Av.
  rewrite (upto_ext (p - i) _ (fun m => if open then lu else (lu - (INR p - INR i - 1) * du) + du * INR m)).
  2: { intros m Hm. rewrite pre_at by lia. destruct open; [reflexivity|]. rewrite !plus_INR. cbn [INR]. ring. }
  rewrite (upto_ext i _ (fun m => if open then uu else uu + du * INR m)) by (intros m Hm; rewrite post_at by lia; destruct open; [reflexivity|ring]).
  unfold offset, slope, dx. destruct open.
  - rewrite !upto_const, Ii. field. lra.
  - rewrite !upto_plus, !upto_const, !upto_scal, !upto_INR, Ii. unfold du. field. lra.
Qed.
Lemma construct_ok : exists s, construct pad p n lx ux lu uu open = Some s /\ bs_k s = p /\ bs_t s = knots n lu uu pre post (n - 1) /\ length (bs_c s) = (n + p)%nat /\ averaged offset slope (bs_t s) (bs_c s) p.
Proof.
  assert (Ip := ip). assert (In_ := i_n). assert (Lp := pre_length). assert (Lq := post_length). assert (D := dup). assert (Nd := ndu).
  unfold construct. destruct (Nat.eqb_spec n 0); [lia|]. destruct (Nat.eqb_spec p 0); [lia|]. cbn [orb]. fold du dx.
  assert (Dx : dx <> 0) by (unfold dx; intros E; apply Hx; apply (Rmult_eq_compat_r (INR p)) in E; unfold Rdiv in E; rewrite Rmult_assoc, Rinv_l, Rmult_1_r, Rmult_0_l in E by lra; lra).
  rewrite (arange_ok lx (ux + 1 / 2 * dx) dx (p + 1) Dx).
  2: { replace ((ux + 1 / 2 * dx - lx) / dx) with (INR p + 1/2) by (unfold dx in *; field; split; [lra|]; intros E; apply Dx; unfold Rdiv; rewrite E; ring). rewrite plus_INR. cbn [INR]. lra. }
  fold cps. rewrite first_eq. assert (Av := cps_averaged).
  rewrite (make_ok p n lu uu pre post Hp Hn Hu Lp Lq pre_nd post_nd pre_in post_in pre_end post_start 0 cps); [|lia|destruct Av as [L _]; rewrite (knots_n p n lu uu pre post Hp Hn Lp Lq) in L; exact L].
  rewrite (arange_ok (lu + du) (uu - 1 / 2 * du) du (n - 1)); [|lra|].
  2: { replace ((uu - 1 / 2 * du - (lu + du)) / du) with (INR n - 3/2) by (replace uu with (lu + INR n * du) by lra; field; lra). rewrite minus_INR by lia. cbn [INR]. lra. }
  destruct (all_ok pad p n lu uu offset slope pre post Hp Hn Hu Lp Lq pre_nd post_nd pre_in post_in pre_end post_start (n - 1) 0 (BSpline (knots n lu uu pre post 0) cps p)) as (s & E & Et & Ek & As); [lia|reflexivity|reflexivity|exact Av|].
  change (fun i : nat => lu + du + INR i * du) with (inner_knot n lu uu). rewrite E. eexists. split; [reflexivity|]. cbn [bs_t bs_c bs_k]. split; [exact Ek|]. split; [exact Et|].
  assert (Ln : length (bs_t s) = (2 * p + 2 + (n - 1))%nat) by (rewrite Et; apply knots_length; assumption).
  destruct As as [L1 L2]. unfold bs_n in L1, L2. assert (Lf : length (firstn (length (bs_t s) - p - 1) (bs_c s)) = (length (bs_t s) - p - 1)%nat) by (apply firstn_length_le; exact L1).
  split; [rewrite Lf; lia|]. split; [unfold bs_n; rewrite Lf; lia|]. intros i Hi. unfold bs_n in Hi. rewrite <- (L2 i Hi). rewrite <- (firstn_skipn (length (bs_t s) - p - 1) (bs_c s)) at 2. rewrite app_nth1 by lia. reflexivity.
Qed.
Lemma knots_explicit i : (i <= n + 2 * p)%nat -> at_list (knots n lu uu pre post (n - 1)) i = spec_knot p n lu uu open i.
Proof.
  intros Hi. assert (Lp := pre_length). assert (Lq := post_length). assert (Nd := ndu). unfold spec_knot. fold du. destruct (le_lt_dec i p) as [H|H].
  - rewrite (knots_pre p n lu uu pre post Hp Hn Lp Lq (n - 1) i H), pre_at by exact H. destruct open; [|lra]. replace (Nat.min n (i - p)) with 0%nat by lia. cbn [INR]. lra.
  - destruct (le_lt_dec (p + n) i) as [G|G].
    + replace i with (p + 1 + (n - 1) + (i - p - n))%nat at 1 by lia. rewrite (knots_post p n lu uu pre post Hp Hn Lp Lq), post_at by lia. destruct open.
      * replace (Nat.min n (i - p)) with n by lia. lra.
      * rewrite !minus_INR by lia. lra.
    + replace i with (p + 1 + (i - p - 1))%nat at 1 by lia. rewrite (knots_mid p n lu uu pre post Hp Hn Lp Lq) by lia. unfold inner_knot. fold du. destruct open.
      * replace (Nat.min n (i - p)) with (S (i - p - 1)) by lia. rewrite S_INR. lra.
      * rewrite !minus_INR by lia. cbn [INR]. lra.
Qed.
End Good.
Lemma construct_bad : (p = 0)%nat \/ (n = 0)%nat \/ lx = ux \/ uu <= lu -> construct pad p n lx ux lu uu open = None.
Proof.
  intros H. unfold construct. destruct (Nat.eqb_spec n 0); [reflexivity|]. destruct (Nat.eqb_spec p 0); [reflexivity|]. cbn [orb].
  destruct (arange lx (ux + 1 / 2 * ((ux - lx) / INR p)) ((ux - lx) / INR p)) as [cps0|] eqn:E; [|reflexivity].
  assert (Lx : lx <> ux). { intros ->. unfold arange in E. replace ((ux - ux) / INR p) with 0 in E by (unfold Rdiv; ring). destruct (Req_EM_T 0 0); [discriminate|contradiction]. }
  assert (Hu : uu <= lu) by (destruct H as [?|[?|[?|?]]]; [contradiction|contradiction|contradiction|assumption]).
  assert (M : forall c, make_bspline (first_knots p n lu uu open) c p = None); [|rewrite M; reflexivity]. intros c.
  set (a := if open then repeat lu (p + 1) else map (fun i => lu - (INR p - INR i) * ((uu - lu) / INR n)) (seq 0 (p + 1))).
  set (b := if open then repeat uu (p + 1) else map (fun i => uu + INR i * ((uu - lu) / INR n)) (seq 0 (p + 1))).
  assert (F : first_knots p n lu uu open = a ++ b) by (unfold first_knots, a, b; destruct open; reflexivity).
  assert (La : length a = (p + 1)%nat) by (unfold a; destruct open; [apply repeat_length|rewrite map_length, seq_length; reflexivity]).
  assert (Lb : length b = (p + 1)%nat) by (unfold b; destruct open; [apply repeat_length|rewrite map_length, seq_length; reflexivity]).
  assert (A : nth p a 0 = lu). { unfold a. destruct open; [apply nth_repeat_lt; lia|]. rewrite nth_map_seq by lia. ring. }
  assert (B : nth 0 b 0 = uu). { unfold b. destruct open; [apply nth_repeat_lt; lia|]. rewrite (nth_map_seq (fun i => uu + INR i * ((uu - lu) / INR n))) by lia. cbn [INR]. ring. }
  unfold make_bspline. rewrite F. unfold bs_n. rewrite app_length, La, Lb. replace (p + 1 + (p + 1) - p - 1)%nat with (p + 1)%nat by lia.
  rewrite (app_nth1 a b 0 (n := p)) by lia. rewrite (app_nth2 a b 0 (n := p + 1)) by lia. rewrite La, Nat.sub_diag, A, B. rewrite (proj2 (rle_true uu lu) Hu). cbn [negb]. rewrite !andb_false_r. reflexivity.
Qed.
End Direction.

(** What is known about the spline of a direction. *)
Definition good (p n : nat) (lx ux lu uu : R) (open : bool) (s : bspline) : Prop :=
  bs_k s = p /\ length (bs_t s) = (n + 2 * p + 1)%nat /\ length (bs_c s) = (n + p)%nat /\ (forall i, (i <= n + 2 * p)%nat -> knot s i = spec_knot p n lu uu open i) /\
  (forall i, (i < n + p)%nat -> nth i (bs_c s) 0 = lx + (ux - lx) / (uu - lu) * (average (knot s) p i - lu)).
Lemma construct_good pad p n lx ux lu uu open s : construct pad p n lx ux lu uu open = Some s -> (1 <= p /\ 1 <= n)%nat /\ lx <> ux /\ lu < uu /\ good p n lx ux lu uu open s.
Proof.
  intros E. destruct (Nat.eq_dec p 0) as [|Hp]; [rewrite construct_bad in E by auto; discriminate|]. destruct (Nat.eq_dec n 0) as [|Hn]; [rewrite construct_bad in E by auto; discriminate|].
  destruct (Req_EM_T lx ux) as [|Hx]; [rewrite construct_bad in E by auto; discriminate|]. destruct (Rle_dec uu lu) as [|Hu]; [rewrite construct_bad in E by auto; discriminate|].
  destruct (construct_ok pad p n lx ux lu uu open ltac:(lia) ltac:(lia) ltac:(lra) Hx) as (s' & E' & Ek & Et & Lc & Av). rewrite E in E'. injection E' as <-.
  split; [lia|]. split; [exact Hx|]. split; [lra|]. unfold good. split; [exact Ek|]. assert (Ln : length (bs_t s) = (n + 2 * p + 1)%nat).
  { rewrite Et, (knots_length p n); [lia|lia|lia| |]; destruct open; rewrite ?repeat_length, ?map_length, ?seq_length; reflexivity. }
  split; [exact Ln|]. split; [exact Lc|]. split.
  - intros i Hi. unfold knot. rewrite Et. apply knots_explicit; try lia; try lra; exact 0.
  - intros i Hi. destruct Av as [_ Av]. rewrite Av by (unfold bs_n; lia). unfold offset, slope. change (average (at_list (bs_t s)) p i) with (average (knot s) p i). ring.
Qed.
Section Use.
Variables (p n : nat) (lx ux lu uu : R) (open : bool) (s : bspline).
Hypothesis Hp : (1 <= p)%nat.
Hypothesis Hn : (1 <= n)%nat.
Hypothesis Hu : lu < uu.
Hypothesis G : good p n lx ux lu uu open s.
Let du := (uu - lu) / INR n.
Lemma du_gt : 0 < du. Proof. apply Rdiv_lt_0_compat; [lra|apply lt_0_INR; lia]. Qed.
Lemma good_n : bs_n (bs_t s) (bs_k s) = (n + p)%nat.
Proof. destruct G as (E & L & _). unfold bs_n. rewrite E, L. lia. Qed.
Lemma good_mono i : (S i <= n + 2 * p)%nat -> knot s i <= knot s (S i).
Proof.
  intros H. destruct G as (_ & _ & _ & K & _). rewrite !K by lia. unfold spec_knot. fold du. assert (D := du_gt). destruct open.
  - assert (INR (Nat.min n (i - p)) <= INR (Nat.min n (S i - p))) by (apply le_INR; lia). nra.
  - rewrite S_INR. lra.
Qed.
(** The span of the cell with position c. *)
Lemma cell_knots c : (c < n)%nat -> knot s (p + c) = lu + INR c * du /\ knot s (p + c + 1) = lu + (INR c + 1) * du.
Proof.
  intros H. destruct G as (_ & _ & _ & K & _). rewrite !K by lia. unfold spec_knot. fold du. destruct open.
  - replace (Nat.min n (p + c - p)) with c by lia. replace (Nat.min n (p + c + 1 - p)) with (S c) by lia. rewrite S_INR. lra.
  - rewrite !plus_INR. cbn [INR]. split; ring.
Qed.
Lemma cell_span c u : (c < n)%nat -> lu + INR c * du <= u <= lu + (INR c + 1) * du -> in_span s (p + c) u.
Proof.
  intros H U. destruct (cell_knots c H) as [A B]. assert (D := du_gt). unfold in_span. rewrite good_n. destruct G as (E & _). rewrite E. split; [lia|]. rewrite A, B. split; [lra|exact U].
Qed.
Lemma spline_affine j u : in_span s j u -> value_at s j u = lx + (ux - lx) / (uu - lu) * (u - lu) /\ upto (n + p) (fun i => basis (knot s) j p i u) = 1.
Proof.
  intros (J & Sp & _). unfold value_at. rewrite good_n in *. destruct G as (E & L & Lc & K & A). rewrite E in *. split.
  - rewrite (upto_ext _ _ (fun i => (lx - (ux - lx) / (uu - lu) * lu + (ux - lx) / (uu - lu) * average (knot s) p i) * basis (knot s) j p i u)) by (intros i Hi; rewrite A by exact Hi; ring).
    rewrite (affine (knot s) (n + 2 * p) good_mono j Sp p (n + p)) by lia. ring.
  - apply (unity_all (knot s) (n + 2 * p) good_mono j Sp p); lia.
Qed.
End Use.
(** *** The control points *)
Lemma nth_flat {A B} (f : A -> list B) m l i j a : (forall x, In x l -> length (f x) = m) -> nth_error l j = Some a -> (i < m)%nat -> nth_error (flat_map f l) (j * m + i) = nth_error (f a) i.
Proof.
  revert j. induction l as [|x l IH]; intros j H E Hi; [destruct j; discriminate|]. cbn [flat_map]. destruct j as [|j].
  - injection E as ->. rewrite nth_error_app1; [reflexivity|]. rewrite H by (left; reflexivity). lia.
  - rewrite nth_error_app2; rewrite H by (left; reflexivity); [|lia]. replace (S j * m + i - m)%nat with (j * m + i)%nat by lia. apply IH; [intros y I; apply H; right; exact I|exact E|exact Hi].
Qed.
Lemma flat_length {A B} (f : A -> list B) m l : (forall x, In x l -> length (f x) = m) -> length (flat_map f l) = (length l * m)%nat.
Proof. induction l as [|x l IH]; intros H; [reflexivity|]. cbn [flat_map length]. rewrite app_length, H by (left; reflexivity). rewrite IH by (intros y I; apply H; right; exact I). lia. Qed.
Lemma control_nth v i j k x y z : nth_error (bs_c (spline_u v)) i = Some x -> nth_error (bs_c (spline_v v)) j = Some y -> nth_error (bs_c (spline_w v)) k = Some z ->
  nth_error (control_points v) ((k * length (bs_c (spline_v v)) + j) * length (bs_c (spline_u v)) + i) = Some (Pt x y z).
Proof.
  intros X Y Z. assert (Hi : (i < length (bs_c (spline_u v)))%nat) by (apply nth_error_Some; congruence). assert (Hj : (j < length (bs_c (spline_v v)))%nat) by (apply nth_error_Some; congruence).
  unfold control_points. set (nu := length (bs_c (spline_u v))) in *. set (nv := length (bs_c (spline_v v))) in *.
  replace ((k * nv + j) * nu + i)%nat with (k * (nv * nu) + (j * nu + i))%nat by ring.
  rewrite (nth_flat _ (nv * nu) _ _ k z); [|intros; apply flat_length; intros; apply map_length|exact Z|nia].
  rewrite (nth_flat _ nu _ i j y); [|intros; apply map_length|exact Y|exact Hi]. rewrite nth_error_map, X. reflexivity.
Qed.
Lemma control_length v : length (control_points v) = (length (bs_c (spline_w v)) * (length (bs_c (spline_v v)) * length (bs_c (spline_u v))))%nat.
Proof. apply flat_length. intros. apply flat_length. intros. apply map_length. Qed.
