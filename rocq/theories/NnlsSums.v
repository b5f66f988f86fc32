(** Sums over index ranges, vectors of m rows and residuals, and maps that leave residuals unchanged. *)
From Coq Require Import Arith Reals List Bool Lra Lia Permutation.
From Verif Require Import NnlsModel.
Import ListNotations.
Local Open Scope R_scope.

Lemma fold_acc (f : nat -> R) l s : fold_left (fun s l => s + f l) l s = s + fold_left (fun s l => s + f l) l 0.
Proof.
  revert s. induction l as [|i l IH]; intros s; cbn [fold_left]; [ring|]. rewrite (IH (s + f i)), (IH (0 + f i)). ring.
Qed.
Lemma acc_empty f lo hi : (hi < lo)%nat -> acc f lo hi = 0.
Proof. intros H. unfold acc. replace (S hi - lo)%nat with 0%nat by lia. reflexivity. Qed.
Lemma acc_first f lo hi : (lo <= hi)%nat -> acc f lo hi = f lo + acc f (S lo) hi.
Proof.
  intros H. unfold acc. replace (S hi - lo)%nat with (S (S hi - S lo)) by lia. cbn [seq fold_left]. rewrite fold_acc. ring.
Qed.
Lemma acc_last f lo hi : (lo <= S hi)%nat -> acc f lo (S hi) = acc f lo hi + f (S hi).
Proof.
  intros H. unfold acc. replace (S (S hi) - lo)%nat with (S hi - lo + 1)%nat by lia. rewrite seq_app, fold_left_app. cbn [seq fold_left].
  replace (lo + (S hi - lo))%nat with (S hi) by lia. reflexivity.
Qed.
Lemma acc_ext f g lo hi : (forall l, (lo <= l <= hi)%nat -> f l = g l) -> acc f lo hi = acc g lo hi.
Proof.
  intros H. unfold acc. assert (E : forall l s, (forall i, In i l -> f i = g i) -> fold_left (fun s l => s + f l) l s = fold_left (fun s l => s + g l) l s).
  { induction l as [|i l IH]; intros s K; cbn [fold_left]; [reflexivity|]. rewrite (K i (or_introl eq_refl)). apply IH. intros k Hk. apply K. right. exact Hk. }
  apply E. intros i Hi. apply in_seq in Hi. apply H. lia.
Qed.
Lemma fold_plus (f g : nat -> R) l : fold_left (fun s l => s + (f l + g l)) l 0 = fold_left (fun s l => s + f l) l 0 + fold_left (fun s l => s + g l) l 0.
Proof. induction l as [|i l IH]; cbn [fold_left]; [ring|]. rewrite (fold_acc (fun l => f l + g l)), (fold_acc f), (fold_acc g), IH. ring. Qed.
Lemma acc_plus f g lo hi : acc (fun l => f l + g l) lo hi = acc f lo hi + acc g lo hi.
Proof. apply fold_plus. Qed.
Lemma acc_scal c f lo hi : acc (fun l => c * f l) lo hi = c * acc f lo hi.
Proof.
  unfold acc. induction (seq lo (S hi - lo)) as [|i l IH]; cbn [fold_left]; [ring|]. rewrite (fold_acc (fun l => c * f l)), (fold_acc f), IH. ring.
Qed.
Lemma acc_zero f lo hi : (forall l, (lo <= l <= hi)%nat -> f l = 0) -> acc f lo hi = 0.
Proof. intros H. rewrite (acc_ext f (fun l => 0 * f l)) by (intros l K; rewrite H by exact K; ring). rewrite acc_scal. ring. Qed.
Lemma acc_nonneg f lo hi : (forall l, (lo <= l <= hi)%nat -> 0 <= f l) -> 0 <= acc f lo hi.
Proof.
  intros H. unfold acc. assert (E : forall l s, (forall i, In i l -> 0 <= f i) -> 0 <= s -> 0 <= fold_left (fun s l => s + f l) l s).
  { induction l as [|i l IH]; intros s K Hs; cbn [fold_left]; [exact Hs|]. apply IH; [intros k Hk; apply K; right; exact Hk|]. pose proof (K i (or_introl eq_refl)). lra. }
  apply E; [|lra]. intros i Hi. apply in_seq in Hi. apply H. lia.
Qed.
Lemma acc_le f g lo hi : (forall l, (lo <= l <= hi)%nat -> f l <= g l) -> acc f lo hi <= acc g lo hi.
Proof.
  intros H. assert (K : 0 <= acc (fun l => g l + -1 * f l) lo hi) by (apply acc_nonneg; intros l Hl; pose proof (H l Hl); lra).
  rewrite acc_plus, acc_scal in K. lra.
Qed.
Lemma acc_split f lo mid hi : (lo <= S mid)%nat -> (mid <= hi)%nat -> acc f lo hi = acc f lo mid + acc f (S mid) hi.
Proof.
  intros H1 H2. unfold acc. replace (S hi - lo)%nat with ((S mid - lo) + (S hi - S mid))%nat by lia. rewrite seq_app, fold_left_app, fold_acc.
  replace (lo + (S mid - lo))%nat with (S mid) by lia. reflexivity.
Qed.
Lemma fold_swap (f : nat -> nat -> R) l l' :
  fold_left (fun s i => s + fold_left (fun s j => s + f i j) l' 0) l 0 = fold_left (fun s j => s + fold_left (fun s i => s + f i j) l 0) l' 0.
Proof.
  induction l as [|i l IH]; cbn [fold_left].
  - induction l' as [|j l' IH']; cbn [fold_left]; [reflexivity|]. rewrite Rplus_0_r. exact IH'.
  - rewrite (fold_acc (fun i => fold_left (fun s j => s + f i j) l' 0)), IH, Rplus_0_l, <- fold_plus. clear IH.
    assert (E : forall s, fold_left (fun s0 j => s0 + (f i j + fold_left (fun s1 i0 => s1 + f i0 j) l 0)) l' s = fold_left (fun s0 j => s0 + fold_left (fun s1 i0 => s1 + f i0 j) l (0 + f i j)) l' s).
    { induction l' as [|j l' IH']; intros s; cbn [fold_left]; [reflexivity|]. rewrite (fold_acc (fun i0 => f i0 j) l (0 + f i j)), Rplus_0_l. apply IH'. }
    apply E.
Qed.
Lemma acc_swap (f : nat -> nat -> R) lo hi lo' hi' : acc (fun l => acc (fun j => f l j) lo' hi') lo hi = acc (fun j => acc (fun l => f l j) lo hi) lo' hi'.
Proof. apply fold_swap. Qed.
(** a single term *)
Lemma acc_one f lo hi k : (lo <= k <= hi)%nat -> (forall l, (lo <= l <= hi)%nat -> l <> k -> f l = 0) -> acc f lo hi = f k.
Proof.
  intros Hk H. rewrite (acc_split f lo k hi) by lia. rewrite (acc_zero f (S k) hi) by (intros l Hl; apply H; lia).
  destruct k as [|k].
  - replace lo with 0%nat by lia. cbv [acc seq fold_left Nat.sub]. ring.
  - rewrite acc_last by lia. rewrite (acc_zero f lo k) by (intros l Hl; apply H; lia). ring.
Qed.
(** two functions that differ at two places *)
Lemma acc_diff2 f g lo hi i k : (lo <= i <= hi)%nat -> (lo <= k <= hi)%nat -> i <> k -> (forall l, (lo <= l <= hi)%nat -> l <> i -> l <> k -> f l = g l) ->
  f i + f k = g i + g k -> acc f lo hi = acc g lo hi.
Proof.
  intros Hi Hk Hne H E. assert (K : acc (fun l => f l + -1 * g l) lo hi = 0).
  { rewrite (acc_ext _ (fun l => (if (l =? i)%nat then f l + -1 * g l else 0) + (if (l =? k)%nat then f l + -1 * g l else 0))).
    - rewrite acc_plus. rewrite (acc_one _ lo hi i Hi), (acc_one _ lo hi k Hk), !Nat.eqb_refl; [lra| |];
      intros l _ Hl; apply Nat.eqb_neq in Hl; rewrite Hl; reflexivity.
    - intros l Hl. destruct (Nat.eqb_spec l i) as [E1|N1]; destruct (Nat.eqb_spec l k) as [E2|N2]; [congruence|lra|lra|rewrite H by assumption; lra]. }
  rewrite acc_plus, acc_scal in K. lra.
Qed.
(** sums do not depend on the order of the indices *)
Lemma fold_perm (f : nat -> R) l l' : Permutation l l' -> fold_left (fun s i => s + f i) l 0 = fold_left (fun s i => s + f i) l' 0.
Proof.
  intros H. induction H as [|x k k' H IH|x y k|]; cbn [fold_left]; [reflexivity| | |congruence].
  - rewrite (fold_acc f k), (fold_acc f k'), IH. reflexivity.
  - rewrite (fold_acc f k (0 + f y + f x)), (fold_acc f k (0 + f x + f y)). ring.
Qed.
Definition perm_on (n : nat) (ix : nat -> nat) : Prop :=
  (forall q, (1 <= q <= n)%nat -> (1 <= ix q <= n)%nat) /\ (forall q r, (1 <= q <= n)%nat -> (1 <= r <= n)%nat -> ix q = ix r -> q = r).
Lemma perm_list n ix : perm_on n ix -> Permutation (map ix (seq 1 n)) (seq 1 n).
Proof.
  intros (H1 & H2). apply NoDup_Permutation_bis.
  - assert (E : forall l, NoDup l -> (forall q, In q l -> (1 <= q <= n)%nat) -> NoDup (map ix l)).
    { induction l as [|q l IH]; intros HN HI; cbn [map]; constructor.
      - intros K. apply in_map_iff in K. destruct K as (r & E & Hr). apply H2 in E; [|apply HI; right; exact Hr|apply HI; left; reflexivity]. subst r. inversion HN; contradiction.
      - apply IH; [inversion HN; assumption|intros r Hr; apply HI; right; exact Hr]. }
    apply E; [apply seq_NoDup|]. intros q Hq. apply in_seq in Hq. lia.
  - rewrite map_length. lia.
  - intros k Hk. apply in_map_iff in Hk. destruct Hk as (q & <- & Hq). apply in_seq in Hq. apply in_seq. pose proof (H1 q ltac:(lia)). lia.
Qed.
Lemma perm_surj n ix j : perm_on n ix -> (1 <= j <= n)%nat -> exists q, (1 <= q <= n)%nat /\ ix q = j.
Proof.
  intros H Hj. pose proof (perm_list n ix H) as P. assert (K : In j (map ix (seq 1 n))) by (apply (Permutation_in j (Permutation_sym P)); apply in_seq; lia).
  apply in_map_iff in K. destruct K as (q & E & Hq). apply in_seq in Hq. exists q. split; [lia|exact E].
Qed.
Lemma acc_perm n ix f : perm_on n ix -> acc f 1 n = acc (fun q => f (ix q)) 1 n.
Proof.
  intros H. unfold acc. replace (S n - 1)%nat with n by lia. rewrite <- (fold_perm f _ _ (perm_list n ix H)).
  assert (E : forall l s, fold_left (fun s i => s + f i) (map ix l) s = fold_left (fun s q => s + f (ix q)) l s) by (induction l as [|q l IH]; intros s; cbn [map fold_left]; [reflexivity|apply IH]).
  apply E.
Qed.

(** ** residuals *)
Section Res.
Variables m n : nat.
(** row l of A y *)
Definition rowsum (a : mat) (y : vec) (l : nat) : R := acc (fun j => a j l * y j) 1 n.
(** squared residual of y *)
Definition res2 (a : mat) (b : vec) (y : vec) : R := acc (fun l => (rowsum a y l - b l) * (rowsum a y l - b l)) 1 m.
Definition normsq (v : vec) : R := acc (fun l => v l * v l) 1 m.

(** linear maps of vectors with m rows that preserve the norm *)
Definition isometry (T : vec -> vec) : Prop :=
  (forall u v, (forall l, (1 <= l <= m)%nat -> u l = v l) -> forall l, (1 <= l <= m)%nat -> T u l = T v l) /\
  (forall u v c l, (1 <= l <= m)%nat -> T (fun l => u l + c * v l) l = T u l + c * T v l) /\
  (forall v, normsq (T v) = normsq v).
Lemma isometry_zero T v : isometry T -> (forall l, (1 <= l <= m)%nat -> v l = 0) -> forall l, (1 <= l <= m)%nat -> T v l = 0.
Proof.
  intros (H1 & H2 & _) Hv l Hl. pose proof (H2 v v (-1) l Hl) as K.
  rewrite (H1 v (fun l => v l + -1 * v l)) by (auto; intros k Hk; rewrite Hv by exact Hk; ring). rewrite K. ring.
Qed.
Lemma fold_comb T (a : mat) (y : vec) b ls l : isometry T -> (1 <= l <= m)%nat ->
  T (fun l => fold_left (fun s j => s + a j l * y j) ls 0 + -1 * b l) l = fold_left (fun s j => s + T (a j) l * y j) ls 0 + -1 * T b l.
Proof.
  intros HT. revert l. induction ls as [|j ls IH]; intros l Hl; cbn [fold_left].
  - pose proof (proj1 (proj2 HT) (fun _ => 0) b (-1) l Hl) as K. cbv beta in K. rewrite K. rewrite (isometry_zero T (fun _ => 0)) by (auto || exact HT). reflexivity.
  - rewrite (fold_acc (fun j => T (a j) l * y j) ls (0 + T (a j) l * y j)).
    rewrite (proj1 HT _ (fun k => (fun k => fold_left (fun s j => s + a j k * y j) ls 0 + -1 * b k) k + y j * a j k)).
    + rewrite (proj1 (proj2 HT) (fun k => fold_left (fun s j => s + a j k * y j) ls 0 + -1 * b k) (a j) (y j) l Hl). rewrite (IH l Hl). ring.
    + intros k Hk. rewrite (fold_acc (fun j => a j k * y j) ls (0 + a j k * y j)). ring.
    + exact Hl.
Qed.
Lemma res2_ext a b a' b' y : (forall j l, (1 <= j <= n)%nat -> (1 <= l <= m)%nat -> a' j l = a j l) -> (forall l, (1 <= l <= m)%nat -> b' l = b l) -> res2 a' b' y = res2 a b y.
Proof.
  intros H1 H2. unfold res2. apply acc_ext. intros l Hl. rewrite (H2 l Hl). replace (rowsum a' y l) with (rowsum a y l); [reflexivity|].
  unfold rowsum. apply acc_ext. intros j Hj. rewrite H1 by assumption. reflexivity.
Qed.
Theorem res2_isometry T a b a' b' y : isometry T -> (forall j l, (1 <= j <= n)%nat -> (1 <= l <= m)%nat -> a' j l = T (a j) l) ->
  (forall l, (1 <= l <= m)%nat -> b' l = T b l) -> res2 a' b' y = res2 a b y.
Proof.
  intros HT Ha Hb. rewrite (res2_ext (fun j => T (a j)) (T b) a' b' y Ha Hb).
  transitivity (normsq (T (fun l => rowsum a y l + -1 * b l))).
  - unfold res2, normsq. apply acc_ext. intros l Hl. unfold rowsum, acc. rewrite (fold_comb T a y b _ l HT Hl). ring.
  - rewrite (proj2 (proj2 HT)). unfold normsq, res2. apply acc_ext. intros l _. ring.
Qed.
(** the reordered row sum *)
Lemma rowsum_perm ix a y l : perm_on n ix -> rowsum a y l = acc (fun q => a (ix q) l * y (ix q)) 1 n.
Proof. intros H. apply (acc_perm n ix (fun j => a j l * y j) H). Qed.
End Res.

(** ** reflections and rotations *)
Lemma reflection_isometry m p u beta : (1 <= p)%nat -> beta <> 0 -> (forall l, (l < p)%nat -> u l = 0) -> normsq m u = -2 * beta ->
  isometry m (fun v l => v l + acc (fun k => u k * v k) p m / beta * u l).
Proof.
  intros Hp Hb Hu Hn. assert (G : forall v, acc (fun k => u k * v k) p m = acc (fun k => u k * v k) 1 m).
  { intros v. destruct (le_lt_dec (p - 1) m) as [L|L].
    - rewrite (acc_split _ 1 (p - 1) m) by lia. rewrite (acc_zero _ 1 (p - 1)) by (intros l Hl; rewrite Hu by lia; ring). replace (S (p - 1)) with p by lia. ring.
    - rewrite acc_empty by lia. symmetry. apply acc_zero. intros l Hl. rewrite Hu by lia. ring. }
  split; [|split].
  - intros v w H l Hl. rewrite (H l Hl). rewrite (acc_ext (fun k => u k * v k) (fun k => u k * w k)) by (intros k Hk; rewrite H by lia; reflexivity). reflexivity.
  - intros v w c l Hl. rewrite (acc_ext (fun k => u k * (v k + c * w k)) (fun k => u k * v k + c * (u k * w k))) by (intros; ring). rewrite acc_plus, acc_scal. field. exact Hb.
  - intros v. rewrite G. set (g := acc (fun k => u k * v k) 1 m). unfold normsq.
    rewrite (acc_ext _ (fun l => v l * v l + (2 * (g / beta)) * (u l * v l) + (g / beta) * (g / beta) * (u l * u l))) by (intros; ring).
    rewrite (acc_plus (fun l => v l * v l + (2 * (g / beta)) * (u l * v l))), (acc_plus (fun l => v l * v l)), !acc_scal. fold (normsq m u). rewrite Hn. fold g. field. exact Hb.
Qed.
Lemma rotate_at j c s v l : (1 <= j)%nat -> rotate j c s v l = (if Nat.eqb l j then - s * v (j - 1)%nat + c * v j else if Nat.eqb l (j - 1) then c * v (j - 1)%nat + s * v j else v l).
Proof. intros _. unfold rotate, put. destruct (l =? j)%nat; [reflexivity|]. destruct (l =? j - 1)%nat; reflexivity. Qed.
Lemma rotation_isometry m j c s : (2 <= j <= m)%nat -> c * c + s * s = 1 -> isometry m (rotate j c s).
Proof.
  intros Hj H. split; [|split].
  - intros u v E l Hl. rewrite !rotate_at by lia. destruct (l =? j)%nat; [|destruct (l =? j - 1)%nat]; rewrite ?(E j), ?(E (j - 1)%nat), ?(E l) by lia; reflexivity.
  - intros u v d l Hl. rewrite !rotate_at by lia. destruct (l =? j)%nat; [|destruct (l =? j - 1)%nat]; ring.
  - intros v. unfold normsq. apply (acc_diff2 _ _ 1 m (j - 1) j); [lia|lia|lia| |].
    + intros l Hl N1 N2. rewrite rotate_at by lia. apply Nat.eqb_neq in N1, N2. rewrite N1, N2. reflexivity.
    + rewrite !rotate_at by lia. rewrite Nat.eqb_refl. destruct (Nat.eqb_spec (j - 1) j) as [K|_]; [lia|]. rewrite Nat.eqb_refl.
      transitivity ((c * c + s * s) * (v (j - 1)%nat * v (j - 1)%nat + v j * v j)); [ring|rewrite H; ring].
Qed.
Lemma identity_isometry m : isometry m (fun v => v).
Proof. split; [|split]; auto. Qed.
