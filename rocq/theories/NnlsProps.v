(** Property C62: the non-negative least squares solver, and the moment fitting with this solver. *)
From Coq Require Import Arith NArith Reals List Bool Lra Lia Permutation.
From Verif Require Import Geo GridStoreModel GgqModel GgqProofs Ggq1dModel GaussModel GaussProofs GaussProps MappingModel MappingProps PolyModel PolyProps OctreeModel OctreeSpec OctreeProofs OctreeProps TrimmedQuadModel TrimmedQuadProofs TrimmedQuadAssemble TrimmedQuadLemmas TrimmedQuadWitness.
From Verif Require Import NnlsModel NnlsSums NnlsProofs NnlsLoop.
Import ListNotations.
Local Open Scope R_scope.

(** ** specification *)
(** entry r of A x, for the list of columns A *)
Definition product_entry (A : list (list R)) (x : list R) (r : nat) : R := rsum (map (fun p => fst p * nth r (snd p) 0) (combine x A)).
(** squared Euclidean norm of A x - b *)
Definition residual_sq (A : list (list R)) (b x : list R) : R :=
  rsum (map (fun r => (product_entry A x r - nth r b 0) ^ 2) (seq 0 (length b))).
Definition matrix_ok (A : list (list R)) (b : list R) : Prop := forall c, In c A -> length c = length b.
Definition candidate_ok (A : list (list R)) (x : list R) : Prop := length x = length A /\ forall w, In w x -> 0 <= w.
Definition positive_entries (x : list R) : list R := List.filter (fun w => if Rlt_dec 0 w then true else false) x.

(** ** from lists to functions *)
Lemma acc_rsum f m : acc f 1 m = rsum (map (fun r => f (S r)) (seq 0 m)).
Proof.
  unfold acc. replace (S m - 1)%nat with m by lia. rewrite <- (map_map S f), seq_shift. generalize (seq 1 m). intros l.
  induction l as [|i l IH]; [reflexivity|]. cbn [fold_left map rsum fold_right]. rewrite fold_acc, IH. unfold rsum. ring.
Qed.
Lemma combine_sum (f : R * list R -> R) : forall A x, length x = length A ->
  rsum (map f (combine x A)) = rsum (map (fun k => f (nth k x 0, nth k A [])) (seq 0 (length A))).
Proof.
  induction A as [|c A IH]; intros [|w x] H; try discriminate; [reflexivity|]. cbn [combine map rsum fold_right length seq]. f_equal.
  rewrite <- seq_shift, map_map. apply (IH x). simpl in H. lia.
Qed.
Lemma residual_res2 A b x : length x = length A ->
  residual_sq A b x = res2 (length b) (length A) (fun j l => nth (l - 1) (nth (j - 1) A []) 0) (fun l => nth (l - 1) b 0) (fun j => nth (j - 1) x 0).
Proof.
  intros H. unfold residual_sq, res2. rewrite acc_rsum. f_equal. apply map_ext. intros r. replace (S r - 1)%nat with r by lia.
  assert (E : product_entry A x r = rowsum (length A) (fun j l => nth (l - 1) (nth (j - 1) A []) 0) (fun j => nth (j - 1) x 0) (S r)); [|rewrite E; ring].
  unfold product_entry, rowsum. rewrite acc_rsum, combine_sum by exact H. f_equal. apply map_ext. intros k. cbn [fst snd].
  replace (S k - 1)%nat with k by lia. replace (S r - 1)%nat with r by lia. ring.
Qed.
Lemma nth_map_seq (x : nat -> R) n j : (1 <= j <= n)%nat -> nth (j - 1) (map x (seq 1 n)) 0 = x j.
Proof.
  intros H. rewrite (nth_indep _ 0 (x 0%nat)) by (rewrite map_length, seq_length; lia). rewrite map_nth, seq_nth by lia. f_equal. lia.
Qed.
Lemma res2_same_x m n a b x y : (forall j, (1 <= j <= n)%nat -> x j = y j) -> res2 m n a b x = res2 m n a b y.
Proof.
  intros H. unfold res2. apply acc_ext. intros l Hl. replace (rowsum n a x l) with (rowsum n a y l); [reflexivity|].
  unfold rowsum. apply acc_ext. intros j Hj. rewrite H by exact Hj. reflexivity.
Qed.
Lemma filter_map_length (x : nat -> R) l : length (positive_entries (map x l)) = length (List.filter (fun j => rlt 0 (x j)) l).
Proof.
  induction l as [|i l IH]; [reflexivity|]. unfold positive_entries in *. cbn [map List.filter]. unfold rlt at 1. destruct (Rlt_dec 0 (x i)); cbn [length]; rewrite IH; reflexivity.
Qed.
Lemma solved A b : b <> [] -> A <> [] -> exists x r mode, NnlsModel.solve A b = Some (x, r, mode) /\ candidate_ok A x /\
  (length (positive_entries x) <= length b)%nat /\ 0 <= r /\ r ^ 2 <= residual_sq A b x /\
  ((mode = 1%nat /\ r ^ 2 = residual_sq A b x /\ forall y, candidate_ok A y -> residual_sq A b x <= residual_sq A b y) \/ mode = 3%nat).
Proof.
  intros Hb HA. set (m := length b). set (n := length A). assert (Hm : (1 <= m)%nat) by (destruct b; [contradiction|simpl in *; lia]). assert (Hn : (1 <= n)%nat) by (destruct A; [contradiction|simpl in *; lia]).
  set (af := fun j l => nth (l - 1) (nth (j - 1) A []) 0). set (bf := fun l => nth (l - 1) b 0).
  destruct (run_spec m n af bf Hm Hn) as (x & r & mode & E & X0 & R0 & SP & LO & K).
  unfold NnlsModel.solve. fold m. destruct (Nat.ltb_spec 0 m) as [_|L]; [|lia]. fold n. fold af. fold bf. rewrite E.
  assert (LX : length (map x (seq 1 n)) = n) by (rewrite map_length, seq_length; reflexivity).
  assert (RX : residual_sq A b (map x (seq 1 n)) = res2 m n af bf x).
  { rewrite residual_res2 by exact LX. apply res2_same_x. intros j Hj. apply nth_map_seq. exact Hj. }
  exists (map x (seq 1 n)), r, mode. split; [|split; [|split; [|split; [|split]]]].
  - destruct K as [(-> & _)| ->]; reflexivity.
  - split; [exact LX|]. intros w Hw. apply in_map_iff in Hw. destruct Hw as (j & <- & Hj). apply in_seq in Hj. apply X0. lia.
  - rewrite filter_map_length. exact SP.
  - exact R0.
  - rewrite RX. lra.
  - destruct K as [(-> & K1 & K2)|K]; [left|right; exact K]. split; [reflexivity|]. rewrite RX. split; [lra|]. intros y (Y1 & Y2).
    rewrite <- K1. rewrite residual_res2 by exact Y1. apply K2. intros j Hj. apply Y2. apply nth_In. fold n in Y1. lia.
Qed.

(** ** C62 *)
(** for every matrix with at least one row and one column the solver ends without an invalid access or a division by zero; the
    weights are non-negative, at most as many of them as there are rows are positive, and the returned number is at most the residual *)
Theorem C62_solver_total_and_feasible : forall A b, b <> [] -> A <> [] -> matrix_ok A b ->
  exists x r mode, NnlsModel.solve A b = Some (x, r, mode) /\ (mode = 1%nat \/ mode = 3%nat) /\
    candidate_ok A x /\ (length (positive_entries x) <= length b)%nat /\ 0 <= r /\ r ^ 2 <= residual_sq A b x.
Proof.
  intros A b Hb HA _. destruct (solved A b Hb HA) as (x & r & mode & E & C & P & R0 & L & K). exists x, r, mode.
  split; [exact E|]. split; [destruct K as [(K & _)|K]; auto|]. split; [exact C|]. split; [exact P|]. split; assumption.
Qed.
Print Assumptions C62_solver_total_and_feasible.

(** unless the iteration count is exceeded, the returned number is the residual and no other non-negative vector has a smaller one *)
Theorem C62_solver_optimal : forall A b x r mode, b <> [] -> A <> [] -> matrix_ok A b -> NnlsModel.solve A b = Some (x, r, mode) -> mode <> 3%nat ->
  r = sqrt (residual_sq A b x) /\ forall y, candidate_ok A y -> residual_sq A b x <= residual_sq A b y.
Proof.
  intros A b x r mode Hb HA _ E N. destruct (solved A b Hb HA) as (x' & r' & mode' & E' & C & P & R0 & L & K). rewrite E in E'. injection E' as <- <- <-.
  destruct K as [(_ & K1 & K2)|K]; [|contradiction]. split; [|exact K2]. rewrite <- K1. rewrite sqrt_pow2 by exact R0. reflexivity.
Qed.
Print Assumptions C62_solver_optimal.

(** without rows or without columns there are no weights, and the returned number is 1e8 whatever the residual *)
Theorem C62_bad_dimensions : forall A b, b = [] \/ A = [] -> NnlsModel.solve A b = Some ([], 10 ^ 8, 2%nat).
Proof. intros A b [-> | ->]; [reflexivity|]. unfold NnlsModel.solve. destruct b; reflexivity. Qed.
Print Assumptions C62_bad_dimensions.

(** ** composition with the moment fitting of trimmed elements *)
(** the solver as the moment fitting sees it: it does not look at the mode *)
Definition qeso_nnls (A : list (list R)) (b : list R) : list R * R := match NnlsModel.solve A b with Some (x, r, _) => (x, r) | None => ([], 0) end.

Lemma with_solver sort inside state mind maxd cb o target bps X pts :
  permutes sort -> bounds_ok cb -> box_ok X -> (let '(a, b, c) := o in a <= 8 /\ b <= 8 /\ c <= 8)%nat -> mind < target ->
  (exists i j k, moment_index o i j k /\ constant_term (eb_global cb) bps (i, j, k) <> 0) ->
  build_trimmed qeso_nnls sort inside state mind maxd cb o target (Some (bps, X)) None = Ok (Some pts) ->
  exists cand x rn mode, NnlsModel.solve (map (column cb o) cand) (map (constant_term (eb_global cb) bps) (rows o)) = Some (x, rn, mode) /\
    cand <> [] /\ (length cand <= moments_of o)%nat /\ (mode = 1%nat \/ mode = 3%nat) /\
    pts = drop_below (/ 10 ^ 14) (set_weights cb cand x) /\ rn / l2 (map (constant_term (eb_global cb) bps) (rows o)) <= / 100 /\
    (mode = 1%nat -> exists r D, 0 <= r <= / 100 /\ (forall q, In q D -> 0 <= ip_weight q < / 10 ^ 14) /\ (length (pts ++ D) <= moments_of o)%nat /\
      forall i j k, moment_index o i j k ->
        Rabs (rsum (map (fun q => ip_weight q * det_j cb * phi (eb_global cb) i j k (to_global (ip_pos q) cb)) (pts ++ D)) - constant_term (eb_global cb) bps (i, j, k))
        <= r * sqrt (rsum (map (fun x => x * x) (map (constant_term (eb_global cb) bps) (rows o))))).
Proof.
  intros HS Hb HX Ho Ht Hi H. destruct (accurate_fit qeso_nnls sort inside state mind maxd cb o target bps X pts HS Hb HX Ho Ht Hi H) as (cand & r & C1 & C2 & C3 & C4 & C5 & K).
  change (constant_terms (eb_global cb) bps o) with (map (constant_term (eb_global cb) bps) (rows o)) in *. set (ct := map (constant_term (eb_global cb) bps) (rows o)) in *.
  assert (Hct : ct <> []). { destruct Hi as (i & j & k & Hi & _). apply rows_in in Hi. intros E. unfold ct in E. apply map_eq_nil in E. rewrite E in Hi. destruct Hi. }
  assert (HA : map (column cb o) cand <> []) by (intros E; apply map_eq_nil in E; contradiction).
  destruct (solved (map (column cb o) cand) ct Hct HA) as (x & rn & mode & E & (X1 & X2) & _ & R0 & _ & M).
  exists cand, x, rn, mode. split; [exact E|]. split; [exact C1|]. split; [exact C2|]. split; [destruct M as [(M & _)|M]; auto|].
  unfold moment_fitting, qeso_nnls in C3, C4. rewrite E in C3, C4. cbn [fst snd] in C3, C4. split; [exact C3|]. split; [rewrite <- C4; exact C5|].
  intros ->. destruct M as [(_ & M & _)|M]; [|discriminate]. destruct K as (D & K); [|exists r, D; exact K].
  unfold contract_at, qeso_nnls. rewrite E. split; [exact X1|]. split; [exact X2|]. split; [exact R0|]. transitivity (rn ^ 2); [ring|]. rewrite M. unfold residual_sq, apply_row, product_entry.
  f_equal. apply map_ext. intros k. ring.
Qed.
(** the weights of a rule that is accepted come from one call of the solver for at most as many candidates as moments; if this call
    did not exceed its iteration count, the rule reproduces every moment up to one percent of the norm of all moments (C23 without
    an assumption on the solver) *)
Theorem C62_accepted_fit_is_accurate : forall sort inside state mind maxd cb o target bps X pts,
  permutes sort -> bounds_ok cb -> box_ok X -> (let '(a, b, c) := o in a <= 8 /\ b <= 8 /\ c <= 8)%nat -> mind < target ->
  (exists i j k, moment_index o i j k /\ constant_term (eb_global cb) bps (i, j, k) <> 0) ->
  build_trimmed qeso_nnls sort inside state mind maxd cb o target (Some (bps, X)) None = Ok (Some pts) ->
  exists cand x rn mode, NnlsModel.solve (map (column cb o) cand) (map (constant_term (eb_global cb) bps) (rows o)) = Some (x, rn, mode) /\
    cand <> [] /\ (length cand <= moments_of o)%nat /\ (mode = 1%nat \/ mode = 3%nat) /\
    pts = drop_below (/ 10 ^ 14) (set_weights cb cand x) /\ rn / l2 (map (constant_term (eb_global cb) bps) (rows o)) <= / 100 /\
    (mode = 1%nat -> exists r D, 0 <= r <= / 100 /\ (forall q, In q D -> 0 <= ip_weight q < / 10 ^ 14) /\ (length (pts ++ D) <= moments_of o)%nat /\
      forall i j k, moment_index o i j k ->
        Rabs (rsum (map (fun q => ip_weight q * det_j cb * phi (eb_global cb) i j k (to_global (ip_pos q) cb)) (pts ++ D)) - constant_term (eb_global cb) bps (i, j, k))
        <= r * sqrt (rsum (map (fun x => x * x) (map (constant_term (eb_global cb) bps) (rows o))))).
Proof. exact with_solver. Qed.
Print Assumptions C62_accepted_fit_is_accurate.

(** ** instances *)
(** one row of ones: the first column takes everything *)
Lemma one_row n c : (1 <= n)%nat -> 0 < c -> NnlsModel.solve (repeat [1] n) [c] = Some (c :: repeat 0 (n - 1), 0, 1%nat).
Proof.
  intros Hn Hc. unfold NnlsModel.solve. cbn [length]. change (0 <? 1)%nat with true. cbv iota. rewrite repeat_length.
  set (af := fun j l => nth (l - 1) (nth (j - 1) (repeat [1] n) []) 0). set (bf := fun l => nth (l - 1) [c] 0).
  assert (A1 : forall j, (1 <= j <= n)%nat -> af j 1%nat = 1).
  { intros j Hj. unfold af. assert (E : nth (j - 1) (repeat [1] n) [] = [1]); [|rewrite E; reflexivity].
    assert (G : forall k m, (k < m)%nat -> nth k (repeat [1] m) [] = [1]) by (induction k; intros [|m] H; cbn [repeat nth]; try lia; [reflexivity|apply IHk; lia]). apply G. lia. }
  unfold nnls_run. destruct (Nat.leb_spec 1 0); [lia|]. destruct (Nat.leb_spec n 0); [lia|]. cbn [orb].
  assert (F : exists k, (n * 5 + 2)%nat = S k /\ (1 <= k)%nat) by (exists (n * 5 + 1)%nat; lia). destruct F as (k & Fk & Hk). rewrite Fk at 1. cbn [main].
  pose proof (start_inv 1 n af bf (fun y => eq_refl)) as HI. rewrite (base_bounds 1 n af bf _ (proj1 HI)).
  change (s_np (start af bf)) with 0%nat. destruct (Nat.ltb_spec n 1); [lia|]. destruct (Nat.leb_spec 1 0); [lia|]. cbn [orb].
  set (s1 := St _ _ _ _ _ _ _ _). assert (W : forall q, (1 <= q <= n)%nat -> s_w s1 q = c).
  { intros q Hq. pose proof (dual_spec 1 n (start af bf) (ba_perm _ _ _ _ _ (proj1 HI)) ltac:(cbn; lia) q ltac:(cbn [start s_np]; lia)) as D. cbn [start s_ix s_a s_b s_np] in D.
    change (s_w s1 q) with (dual 1 n (start af bf) q). rewrite D. rewrite (acc_one _ 1 1 1) by lia. rewrite A1 by exact Hq. unfold bf. cbn [Nat.sub nth]. ring. }
  assert (ES : select n s1 = (c, 1%nat)).
  { unfold select. change (s_np s1) with 0%nat. change (s_ix s1) with (fun i : nat => i). cbv beta.
    assert (K : (fun i (t : R * nat) => (i = 1%nat /\ t = (0, 0%nat)) \/ (1 < i)%nat /\ t = (c, 1%nat)) (S n) (loop 1 n (fun iz t => if rlt (fst t) (s_w s1 iz) then (s_w s1 iz, iz) else t) (0, 0%nat))).
    { apply (loop_ind (fun i (t : R * nat) => (i = 1%nat /\ t = (0, 0%nat)) \/ (1 < i)%nat /\ t = (c, 1%nat)) 1 n); [lia|left; split; reflexivity|].
      intros i t Hi [(-> & ->)|(Hl & ->)]; right; (split; [lia|]); rewrite W by lia; cbn [fst].
      - rewrite rlt_yes by exact Hc. reflexivity.
      - rewrite rlt_no by lra. reflexivity. }
    destruct K as [(K & _)|(_ & K)]; [lia|exact K]. }
  cbn [choose]. rewrite ES. rewrite rle_no by exact Hc. change (s_np s1) with 0%nat. change (s_ix s1 1%nat) with 1%nat. change (s_a s1) with af. change (s_b s1) with bf.
  rewrite make_idle by lia. rewrite A1 by lia. rewrite Rabs_R1. rewrite rlt_yes by lra. rewrite apply_idle by lia. rewrite req_no by lra.
  replace (bf 1%nat / 1) with c by (unfold bf; cbn [Nat.sub nth]; field). rewrite rlt_yes by exact Hc.
  unfold accept. cbn [s_np s_ix s_a s_b s_x s_w s_zz s_it s1 start].
  match goal with |- context [transform_rest 1 n ?A0 ?I0 1 1 None] => set (ix := I0); set (a0 := A0) end. assert (A0 : a0 1%nat = af 1%nat) by (unfold a0; apply put_same). assert (Ix : forall q, ix q = q) by (intros q; unfold ix, put; destruct (Nat.eqb_spec q 1); [lia|reflexivity]).
  assert (HP : perm_on n ix) by (split; intros; rewrite ?Ix in *; assumption).
  destruct (householder 1 1 (af 1%nat) 1 ltac:(lia) ltac:(lia)) as (u & up & T & EM & HT); [rewrite A1 by lia; lra|]. rewrite make_idle in EM by lia. injection EM as <- <-.
  destruct (transform_spec 1 n a0 ix 1 1 None T (af 1%nat) HP ltac:(lia) (Ix 1%nat)) as (a' & EA & _ & A2); [rewrite A0; exact HT|]. rewrite EA.
  assert (A1' : a' 1%nat = af 1%nat) by (rewrite A2; [exact A0|]; intros q Hq; rewrite Ix; lia).
  unfold solve_triangular. cbn [s_np s_ix s_a s_b s_x s_w s_zz s_it back]. change (1 =? 1)%nat with true. cbv iota zeta. rewrite Ix, put_same.
  change ((2 <=? 1) && (1 <=? 1))%nat with false. cbv iota. rewrite A1', A1 by lia. rewrite req_no by lra.
  replace (n * 5 + 2)%nat with (S (n * 5 + 1)) by lia. cbn [inner].
  replace (bf 1%nat / 1) with c by (unfold bf; cbn [Nat.sub nth]; field).
  assert (IB : forall a b x w zz it, in_bounds 1 n (St a b x w zz ix 1 it) = true).
  { intros a b x w zz it. unfold in_bounds. cbn [s_np s_ix]. change (1 <=? 1)%nat with true. rewrite (proj2 (Nat.leb_le 1 n) Hn). cbn [andb]. apply forallb_forall. intros q Hq. apply in_seq in Hq. rewrite Ix.
    rewrite (proj2 (Nat.leb_le 1 q)), (proj2 (Nat.leb_le q n)) by lia. reflexivity. }
  rewrite IB. cbn [s_np s_ix s_a s_b s_x s_w s_zz s_it]. destruct (Nat.ltb_spec (n * 5) 1); [lia|].
  unfold ratio. cbn [s_np s_ix s_a s_b s_x s_w s_zz s_it]. unfold loop at 1. cbn [Nat.sub seq fold_left]. rewrite put_same. rewrite rle_no by exact Hc. rewrite req_yes by reflexivity.
  destruct k as [|k]; [lia|]. cbn [main]. rewrite IB. cbn [s_np]. change (1 <=? 1)%nat with true. rewrite orb_true_r.
  cbn [s_np s_ix s_a s_b s_x s_w s_zz s_it]. unfold write_back, rnorm. cbn [s_np s_ix s_a s_b s_x s_w s_zz s_it]. unfold loop. cbn [Nat.sub seq fold_left]. rewrite Ix, put_same.
  match goal with |- context [acc ?f 2 1] => replace (acc f 2 1) with 0 by (symmetry; apply acc_empty; lia) end. rewrite sqrt_0. change (1 =? 2)%nat with false. cbv iota. f_equal. f_equal. f_equal.
  destruct n as [|n]; [lia|]. cbn [seq map]. rewrite put_same. f_equal. replace (S n - 1)%nat with n by lia.
  assert (G : forall l k', (2 <= k')%nat -> map (put (fun _ : nat => 0) 1 c) (seq k' l) = repeat 0 l).
  { induction l as [|l IH]; intros k' Hk'; [reflexivity|]. cbn [seq map repeat]. rewrite put_other by lia. f_equal. apply IH. lia. }
  apply G. lia.
Qed.

Section OneMoment.
Variables mind maxd target : R.
Hypothesis Hmin : mind < target.
Hypothesis Hpos : 0 < target.
Hypothesis Hmax : target < maxd.
Notation o0 := (0, 0, 0)%nat.
Lemma one_column q : column unit_bounds o0 q = [1].
Proof. destruct q as [[x y z] w]. unfold column. cbn -[f_x]. unfold f_x, power. cbn. f_equal. field. Qed.
Lemma one_term p : constant_terms (cube 1) (opposite p) o0 = [1].
Proof. destruct p as [x y z]. unfold constant_terms, constant_term, opposite, flux, dot. cbn -[f_x f_x_int]. unfold f_x_int, f_x, power. cbn. f_equal. field. Qed.
Lemma l2_one : l2 [1] = 1.
Proof. unfold l2. cbn [fold_left]. replace (0 + 1 * 1) with 1 by ring. apply sqrt_1. Qed.
Lemma one_fit q l : moment_fitting qeso_nnls unit_bounds o0 [1] (q :: l) = (IP (ip_pos q) 1 :: set_weights unit_bounds l (repeat 0 (length l)), 0).
Proof.
  unfold moment_fitting, qeso_nnls. assert (E : map (column unit_bounds o0) (q :: l) = repeat [1] (length (q :: l))).
  { generalize (q :: l). intros L. induction L as [|a L IH]; [reflexivity|]. cbn [map length repeat]. rewrite one_column, IH. reflexivity. }
  rewrite E, one_row by (cbn [length]; try lia; lra). cbn [set_weights hd tl length]. rewrite unit_det. replace (S (length l) - 1)%nat with (length l) by lia. rewrite l2_one. f_equal; [f_equal; f_equal; field|field].
Qed.
Lemma one_elimination q pts : point_elimination qeso_nnls (fun l => l) mind maxd unit_bounds o0 target [1] (q :: pts) [] = Ok ([IP (ip_pos q) 1], 0, []).
Proof.
  assert (B0 : below_target target 0 = true) by (apply below_true; assumption).
  assert (Bm : below_target target mind = true) by (apply below_true; assumption).
  unfold point_elimination. rewrite Nat.add_comm. cbn [Nat.add pe_loop]. unfold pe_continue at 1. cbn [pe_elim pe_global pe_iter orb]. rewrite Bm. cbn [andb]. change (0 <? maximum_iteration)%N with true. cbv iota.
  unfold pe_body at 1. cbn [pe_pts pe_iter]. rewrite one_fit. change (0 =? 0)%N with true. cbv iota zeta. destruct q as [x w0]. cbn [ip_pos].
  cbn [length]. rewrite set_weights_length. change (number_of_functions o0) with 1%nat.
  destruct (Nat.ltb_spec (S (length pts)) 1) as [L|_]; [lia|]. cbn [firstn]. rewrite (small_drop (IP x 1) []) by (try (intros q' []); simpl; lra).
  cbv iota. cbn [pe_prev_res pe_prev pe_loop]. unfold pe_continue at 1. cbn [pe_elim orb]. cbv iota. unfold pe_body at 1. cbn [pe_pts pe_iter]. rewrite one_fit. cbn [set_weights length ip_pos].
  change (0 + 1 =? 0)%N with false. cbv iota. rewrite B0. change (0 + 1 <? maximum_iteration)%N with true. cbn [andb]. cbv iota.
  assert (MM : forall n, min_max 0 [IP x 1] (n, maxd, - maxd) = ((if Rlt_dec 1 maxd then 0 else n)%nat, (if Rlt_dec 1 maxd then 1 else maxd), (if Rlt_dec (- maxd) 1 then 1 else - maxd))).
  { intros n. cbn [min_max ip_weight]. destruct (Rlt_dec 1 maxd), (Rlt_dec (- maxd) 1); reflexivity. }
  rewrite MM. destruct (Rlt_dec (- maxd) 1) as [_|N]; [|lra]. replace (if Rlt_dec 1 maxd then 0 else 0)%nat with 0%nat by (destruct (Rlt_dec 1 maxd); reflexivity).
  assert (Keep : drop_below (/ 10 ^ 8 * 1) [IP x 1] = [IP x 1]).
  { unfold drop_below. cbn [List.filter ip_weight]. destruct (Rlt_dec 1 (/ 10 ^ 8 * 1)) as [K|_]; [|reflexivity]. exfalso.
    assert (/ 10 ^ 8 <= / 10) by (apply Rinv_le_contravar; [lra|simpl; lra]). lra. }
  rewrite Keep. cbn [length Nat.eqb negb andb orb]. change (min_number_of_points o0) with 0%nat. change (0 <? 1)%nat with true. cbv iota. change (erase_at 0 [IP x 1]) with (@nil ipoint). cbn [length]. change (0 <=? 0)%nat with true. cbv iota. cbn [orb].
  unfold pe_continue at 1. cbn [pe_elim orb]. cbv iota. unfold pe_body at 1. cbn [pe_pts pe_iter pe_prev pe_prev_res].
  unfold moment_fitting. cbn [map set_weights]. unfold qeso_nnls at 1. rewrite (C62_bad_dimensions [] [1]) by (right; reflexivity). change (maximum_iteration + 10 + 1 =? 0)%N with false. cbv iota.
  change (maximum_iteration + 10 + 1 <? maximum_iteration)%N with false. rewrite andb_false_r.
  unfold pe_continue; cbn [pe_elim pe_iter orb]; change (maximum_iteration + 10 + 1 + 1 <? maximum_iteration)%N with false; rewrite andb_false_r; cbv iota;
    unfold pe_finish; cbn [pe_iter pe_prev pe_prev_res pe_pts]; change (maximum_iteration <? maximum_iteration + 10 + 1 + 1)%N with true; rewrite orb_true_r; cbn [app];
    rewrite (small_drop (IP x 1) []) by (try (intros q' []); simpl; lra); reflexivity.
Qed.
Lemma zero_points : exists q pts, add_points everywhere o0 first_tree [] = Some (q :: pts) /\ in_open (cube 1) (ip_pos q).
Proof.
  assert (H1 : box_ok (cube 1)) by (apply cube_ok; lra).
  destruct (all_points full_state everywhere (cube 1) (cube 1) [(1, 1)%nat] first_tree o0 H1 H1 ltac:(simpl; lia) first_refined ltac:(reflexivity)) as (pts & HA & HL & _).
  destruct (uniform full_state (cube 1) (cube 1) 1 first_tree ltac:(discriminate) first_refined) as (HN & _). unfold number_of_leafs in HN. rewrite leafs_count in HN. cbn [Nat.add] in HN. change (8 ^ 1)%nat with 8%nat in HN. rewrite HN in HL.
  destruct pts as [|q pts]; [discriminate|]. exists q, pts. split; [assumption|].
  destruct (octree_points full_state everywhere (cube 1) (cube 1) [(1, 1)%nat] first_tree 0 0 0 [] H1 H1 ltac:(lia) ltac:(lia) ltac:(lia) first_refined) as (pts' & HA' & HI & _).
  rewrite HA in HA'. cbn [app] in HA'. injection HA' as <-. apply (HI q). left. reflexivity.
Qed.
Lemma zero_distributed q pts : add_points everywhere o0 first_tree [] = Some (q :: pts) -> distribute everywhere full_state o0 1 [] (octree_new (cube 1) (cube 1)) = Some (q :: pts, first_tree).
Proof.
  intros HA. unfold distribute. change (o_max (octree_new (cube 1) (cube 1)) + 1)%nat with 1%nat.
  assert (E : forall n, distribute_loop everywhere full_state o0 n 1 2 (q :: pts) first_tree = Some (q :: pts, first_tree)) by (intros []; reflexivity).
  rewrite <- (E 4%nat). generalize 4%nat. intros n. cbn [distribute_loop]. change (length [] <? 1)%nat with true. cbv iota. change (Nat.min 1 4) with 1%nat.
  change (octree_refine full_state 1 1 (octree_new (cube 1) (cube 1))) with (Some first_tree). cbv iota. rewrite HA. reflexivity.
Qed.
Lemma one_accepted : exists bps x, in_open (cube 1) x /\
  (exists i j k, moment_index o0 i j k /\ constant_term (cube 1) bps (i, j, k) <> 0) /\
  build_trimmed qeso_nnls (fun l => l) everywhere full_state mind maxd unit_bounds o0 target (Some (bps, cube 1)) None = Ok (Some [IP x 1]).
Proof.
  destruct zero_points as (q & pts & HA & Hx). exists (opposite (ip_pos q)), (ip_pos q). split; [assumption|]. split.
  { exists 0%nat, 0%nat, 0%nat. split; [simpl; lia|]. pose proof (one_term (ip_pos q)) as E. unfold constant_terms in E. cbn [rows map] in E. cbn -[constant_term] in E. injection E as E. intros K. rewrite K in E. lra. }
  unfold build_trimmed, assemble_ips_trimmed. cbn [eb_global unit_bounds]. rewrite unit_active. change (max_iteration o0) with 3%nat. cbn [assemble_loop].
  destruct (Rlt_dec target maxd) as [_|N]; [|contradiction]. change (number_of_functions o0 * 1)%nat with 1%nat. rewrite (zero_distributed _ _ HA). cbv iota. rewrite app_nil_r, one_term. rewrite one_elimination.
  destruct (Rlt_dec (/ 10 ^ 2) 0) as [K|_]; [exfalso; assert (0 < / 10 ^ 2) by (apply Rinv_0_lt_compat, pow_lt; lra); lra|].
  destruct (Rlt_dec target 0) as [K|_]; [lra|]. reflexivity.
Qed.
End OneMoment.
(** a moment and eight candidates: the hypotheses of the theorems above are met, the solver stops with mode 1 *)
Example solver_example : matrix_ok (repeat [1] 8) [2] /\ NnlsModel.solve (repeat [1] 8) [2] = Some (2 :: repeat 0 7, 0, 1%nat).
Proof. split; [|apply (one_row 8 2); [lia|lra]]. intros c Hc. apply repeat_spec in Hc. subst. reflexivity. Qed.
Example accepted_example : exists bps x, (exists i j k, moment_index (0, 0, 0)%nat i j k /\ constant_term (cube 1) bps (i, j, k) <> 0) /\ in_open (cube 1) x /\
  build_trimmed qeso_nnls (fun l => l) everywhere full_state 0 10 unit_bounds (0, 0, 0)%nat (/ 1000) (Some (bps, cube 1)) None = Ok (Some [IP x 1]).
Proof. destruct (one_accepted 0 10 (/ 1000) ltac:(lra) ltac:(lra) ltac:(lra)) as (bps & x & H1 & H2 & H3). exists bps, x. auto. Qed.
