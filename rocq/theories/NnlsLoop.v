(** Invariants of the loops of the non-negative least squares solver. *)
From Coq Require Import Arith Reals List Bool Lra Lia Permutation.
From Verif Require Import NnlsModel NnlsSums NnlsProofs.
Import ListNotations.
Local Open Scope R_scope.

Section Loop.
Variables m n : nat.
Variables (a0 : mat) (b0 : vec).

(** the columns of set P are upper triangular with a non-zero diagonal *)
Definition tri (a : mat) (ix : nat -> nat) (np : nat) : Prop :=
  forall q, (1 <= q <= np)%nat -> a (ix q) q <> 0 /\ forall l, (q < l <= m)%nat -> a (ix q) l = 0.
(** row r of the triangular system *)
Definition trow (a : mat) (ix : nat -> nat) (np : nat) (z : vec) (r : nat) : R := acc (fun q => a (ix q) r * z q) 1 np.
Record base (s : st) : Prop := Base {
  ba_perm : perm_on n (s_ix s);
  ba_n : (s_np s <= n)%nat;
  ba_m : (s_np s <= m)%nat;
  ba_tri : tri (s_a s) (s_ix s) (s_np s);
  ba_res : forall y, res2 m n (s_a s) (s_b s) y = res2 m n a0 b0 y;
  ba_zero : forall q, (s_np s < q <= n)%nat -> s_x s (s_ix s q) = 0;
  ba_pos : forall q, (1 <= q <= s_np s)%nat -> 0 <= s_x s (s_ix s q) }.
Definition main_inv (s : st) : Prop := base s /\ (forall q, (1 <= q <= s_np s)%nat -> 0 < s_x s (s_ix s q)) /\
  forall r, (1 <= r <= s_np s)%nat -> trow (s_a s) (s_ix s) (s_np s) (fun q => s_x s (s_ix s q)) r = s_b s r.
Definition inner_inv (s : st) : Prop := base s /\ (forall q, (1 <= q <= s_np s)%nat -> s_x s (s_ix s q) = 0 -> 0 < s_zz s q) /\
  forall r, (1 <= r <= s_np s)%nat -> trow (s_a s) (s_ix s) (s_np s) (s_zz s) r = s_b s r.

Lemma base_bounds s : base s -> in_bounds m n s = true.
Proof.
  intros H. unfold in_bounds. rewrite (proj2 (Nat.leb_le _ _) (ba_m s H)), (proj2 (Nat.leb_le _ _) (ba_n s H)). cbn [andb].
  apply forallb_forall. intros q Hq. apply in_seq in Hq. pose proof (proj1 (ba_perm s H) q ltac:(lia)) as K.
  rewrite (proj2 (Nat.leb_le 1 _) (proj1 K)), (proj2 (Nat.leb_le _ n) (proj2 K)). reflexivity.
Qed.

(** ** the triangular system *)
Lemma back_spec a ix np zz0 : tri a ix np -> (np <= m)%nat -> exists zz, back a ix np np zz0 = Some zz /\
  (forall r, (1 <= r <= np)%nat -> trow a ix np zz r = zz0 r) /\ ((1 <= np)%nat -> zz np = zz0 np / a (ix np) np).
Proof.
  intros HT Hm.
  assert (G : forall k zz, (k <= np)%nat -> (forall r, (1 <= r <= k)%nat -> zz r = zz0 r - acc (fun q => a (ix q) r * zz q) (k + 2) np) ->
    (forall r, (k < r <= np)%nat -> acc (fun q => a (ix q) r * zz q) r np = zz0 r) -> exists zz', back a ix np k zz = Some zz' /\
    forall r, (1 <= r <= np)%nat -> acc (fun q => a (ix q) r * zz' q) r np = zz0 r).
  { induction k as [|k IH]; intros zz Hk H1 H2; cbn [back].
    - exists zz. split; [reflexivity|]. intros r Hr. apply H2. lia.
    - cbv zeta. match goal with |- context [put ?f (S k) _] => set (zz1 := f) end.
      assert (E1 : forall r, (1 <= r <= S k)%nat -> zz1 r = zz0 r - acc (fun q => a (ix q) r * zz q) (S (S k)) np).
      { intros r Hr. unfold zz1. destruct (Nat.eqb_spec (S k) np) as [E|N].
        - rewrite acc_empty by lia. rewrite (H1 r Hr), acc_empty by lia. reflexivity.
        - rewrite (proj2 (Nat.leb_le 1 r)), (proj2 (Nat.leb_le r (S k))) by lia. cbn [andb]. rewrite (H1 r Hr). rewrite (acc_first _ (S (S k)) np) by lia.
          replace (S k + 2)%nat with (S (S (S k))) by lia. ring. }
      assert (E2 : forall r, (S k < r)%nat -> zz1 r = zz r).
      { intros r Hr. unfold zz1. destruct (S k =? np)%nat; [reflexivity|]. destruct (Nat.leb_spec r (S k)); [lia|]. rewrite andb_false_r. reflexivity. }
      pose proof (HT (S k) ltac:(lia)) as (D & Z). rewrite req_no by exact D. apply IH; [lia| |].
      + intros r Hr. rewrite put_other by lia. rewrite (E1 r) by lia. replace (k + 2)%nat with (S (S k)) by lia. f_equal.
        apply acc_ext. intros q Hq. rewrite put_other by lia. rewrite E2 by lia. reflexivity.
      + intros r Hr. destruct (Nat.eq_dec r (S k)) as [->|N].
        * rewrite acc_first by lia. rewrite put_same. rewrite (acc_ext _ (fun q => a (ix q) (S k) * zz q)) by (intros q Hq; rewrite put_other by lia; rewrite E2 by lia; reflexivity).
          rewrite (E1 (S k)) by lia. field. exact D.
        * rewrite <- (H2 r) by lia. apply acc_ext. intros q Hq. rewrite put_other by lia. rewrite E2 by lia. reflexivity. }
  destruct (G np zz0 ltac:(lia)) as (zz & E & R).
  { intros r Hr. rewrite acc_empty by lia. ring. }
  { intros r Hr. lia. }
  exists zz. split; [exact E|]. split.
  - intros r Hr. unfold trow. rewrite (acc_split _ 1 (r - 1) np) by lia. replace (S (r - 1)) with r by lia. rewrite (R r Hr).
    rewrite acc_zero; [ring|]. intros q Hq. rewrite (proj2 (HT q ltac:(lia)) r) by lia. ring.
  - intros Hp. pose proof (R np ltac:(lia)) as K. rewrite (acc_one _ np np np) in K by (intros; lia || lia). rewrite <- K. field. apply (HT np). lia.
Qed.
Lemma solve_spec s : base s -> s_zz s = s_b s -> exists zz, solve_triangular s = Some (St (s_a s) (s_b s) (s_x s) (s_w s) zz (s_ix s) (s_np s) (s_it s)) /\
  (forall r, (1 <= r <= s_np s)%nat -> trow (s_a s) (s_ix s) (s_np s) zz r = s_b s r) /\ ((1 <= s_np s)%nat -> zz (s_np s) = s_b s (s_np s) / s_a s (s_ix s (s_np s)) (s_np s)).
Proof.
  intros H E. destruct (back_spec (s_a s) (s_ix s) (s_np s) (s_zz s) (ba_tri s H) (ba_m s H)) as (zz & B & R & L). exists zz. unfold solve_triangular. rewrite B. rewrite E in R, L.
  split; [reflexivity|]. split; assumption.
Qed.

(** ** the dual vector and the choice of a column *)
Definition dual_ok (s : st) : Prop := forall q, (s_np s < q <= n)%nat -> s_w s (s_ix s q) = acc (fun l => s_a s (s_ix s q) l * s_b s l) (S (s_np s)) m.
Lemma dual_spec s : perm_on n (s_ix s) -> (s_np s <= n)%nat -> forall q, (s_np s < q <= n)%nat -> dual m n s (s_ix s q) = acc (fun l => s_a s (s_ix s q) l * s_b s l) (S (s_np s)) m.
Proof.
  intros HP Hn q Hq. unfold dual.
  apply (loop_ind (fun i w => forall q, (s_np s < q < i)%nat -> w (s_ix s q) = acc (fun l => s_a s (s_ix s q) l * s_b s l) (S (s_np s)) m) (S (s_np s)) n); [lia|intros r Hr; lia| |lia].
  intros i w Hi IH r Hr. destruct (Nat.eq_dec r i) as [->|N]; [apply put_same|]. rewrite put_other; [apply IH; lia|].
  intros K. apply (proj2 HP) in K; lia.
Qed.
Lemma select_spec s : (s_np s <= n)%nat -> let '(wmax, iz) := select n s in (forall q, (s_np s < q <= n)%nat -> s_w s (s_ix s q) <= wmax) /\
  0 <= wmax /\ (0 < wmax -> (s_np s < iz <= n)%nat /\ s_w s (s_ix s iz) = wmax).
Proof.
  intros Hn. unfold select.
  assert (K : (fun i (c : R * nat) => (forall q, (s_np s < q < i)%nat -> s_w s (s_ix s q) <= fst c) /\ 0 <= fst c /\ (0 < fst c -> (s_np s < snd c <= n)%nat /\ s_w s (s_ix s (snd c)) = fst c))
    (S n) (loop (S (s_np s)) n (fun iz c => if rlt (fst c) (s_w s (s_ix s iz)) then (s_w s (s_ix s iz), iz) else c) (0, 0%nat))).
  { apply (loop_ind (fun i (c : R * nat) => (forall q, (s_np s < q < i)%nat -> s_w s (s_ix s q) <= fst c) /\ 0 <= fst c /\ (0 < fst c -> (s_np s < snd c <= n)%nat /\ s_w s (s_ix s (snd c)) = fst c)) (S (s_np s)) n); [lia| |].
    - cbn [fst snd]. split; [intros q Hq; lia|]. split; [lra|lra].
    - intros i c Hi (H1 & H2 & H3). pose proof (rlt_spec (fst c) (s_w s (s_ix s i))) as D. destruct (rlt (fst c) (s_w s (s_ix s i))); cbn [fst snd].
      + split; [|split].
        * intros q Hq. destruct (Nat.eq_dec q i) as [->|N]; [lra|]. pose proof (H1 q ltac:(lia)). lra.
        * lra.
        * intros _. split; [lia|reflexivity].
      + split; [|split; assumption]. intros q Hq. destruct (Nat.eq_dec q i) as [->|N]; [lra|]. apply H1. lia. }
  destruct (loop _ _ _ _) as (wmax & iz). cbn [fst snd] in K. destruct K as (H1 & H2 & H3). split; [intros q Hq; apply H1; lia|]. split; assumption.
Qed.
Lemma acc_neq_zero (f : nat -> R) lo hi : acc f lo hi <> 0 -> exists l, (lo <= l <= hi)%nat /\ f l <> 0.
Proof.
  intros H. unfold acc in H. assert (E : forall ls, fold_left (fun s l => s + f l) ls 0 <> 0 -> exists l, In l ls /\ f l <> 0).
  { induction ls as [|l ls IH]; cbn [fold_left]; intros K; [contradiction|]. rewrite fold_acc in K. destruct (Req_dec (f l) 0) as [Z|Z].
    - rewrite Z in K. destruct IH as (k & Hk & F); [intros Y; apply K; rewrite Y; ring|]. exists k. split; [right; exact Hk|exact F].
    - exists l. split; [left; reflexivity|exact Z]. }
  destruct (E _ H) as (l & Hl & F). apply in_seq in Hl. exists l. split; [lia|exact F].
Qed.
(** no column is ever rejected *)
Lemma choose_spec fuel s : base s -> dual_ok s -> (s_np s < n)%nat -> (s_np s < m)%nat ->
  (choose m n (S fuel) s = Some (s, None) /\ forall q, (s_np s < q <= n)%nat -> s_w s (s_ix s q) <= 0) \/
  exists iz u up T zz, choose m n (S fuel) s = Some (St (put (s_a s) (s_ix s iz) u) (s_b s) (s_x s) (s_w s) zz (s_ix s) (s_np s) (s_it s), Some (iz, s_ix s iz, up)) /\
    (s_np s < iz <= n)%nat /\ house (S (s_np s)) m (s_a s (s_ix s iz)) u up T /\ (forall l, (1 <= l <= m)%nat -> zz l = T (s_b s) l) /\ 0 < zz (S (s_np s)) / u (S (s_np s)).
Proof.
  intros HB HD Hn Hm. cbn [choose]. pose proof (select_spec s ltac:(lia)) as HS. destruct (select n s) as (wmax & iz). destruct HS as (H1 & H2 & H3).
  pose proof (rle_spec wmax 0) as D. destruct (rle wmax 0).
  - left. split; [reflexivity|]. intros q Hq. pose proof (H1 q Hq). lra.
  - right. destruct (H3 D) as (Hz & Hw). pose proof (HD iz Hz) as Ew. rewrite Hw in Ew. set (j := s_ix s iz) in *. set (p := S (s_np s)) in *.
    destruct (acc_neq_zero (fun l => s_a s j l * s_b s l) p m) as (k & Hk & Fk); [lra|].
    assert (Ak : s_a s j k <> 0) by (intros K; apply Fk; rewrite K; ring).
    destruct (householder p m (s_a s j) k ltac:(lia) Hk Ak) as (u & up & T & EM & HT). rewrite EM.
    pose proof (ho_pivot _ _ _ _ _ _ HT) as Hu. pose proof (Rabs_pos_lt _ Hu) as Pu.
    set (un := sqrt _). rewrite rlt_yes by lra. destruct (ho_apply _ _ _ _ _ _ HT (s_b s)) as (zz & EA & Hzz). rewrite EA. rewrite req_no by exact Hu.
    assert (Ht : 0 < zz p / u p).
    { pose proof (ho_dual _ _ _ _ _ _ HT (s_b s)) as Q. rewrite <- Ew in Q. rewrite <- (Hzz p) in Q by lia.
      replace (zz p / u p) with (zz p * u p / (u p * u p)) by (field; exact Hu). rewrite Q. apply Rdiv_lt_0_compat; [exact D|]. nra. }
    rewrite rlt_yes by exact Ht. exists iz, u, up, T, zz. fold j. fold p. split; [reflexivity|]. split; [exact Hz|]. split; [exact HT|]. split; assumption.
Qed.

(** ** a column enters *)
Lemma swap_perm ix p i : perm_on n ix -> (1 <= p <= n)%nat -> (1 <= i <= n)%nat -> perm_on n (put (put ix i (ix p)) p (ix i)).
Proof.
  intros (H1 & H2) Hp Hi. assert (E : forall q, put (put ix i (ix p)) p (ix i) q = ix (if (q =? p)%nat then i else if (q =? i)%nat then p else q)).
  { intros q. unfold put. destruct (q =? p)%nat; [reflexivity|]. destruct (q =? i)%nat; reflexivity. }
  split.
  - intros q Hq. rewrite E. apply H1. destruct (q =? p)%nat; [lia|]. destruct (q =? i)%nat; lia.
  - intros q r Hq Hr. rewrite !E. intros K. destruct (Nat.eqb_spec q p); destruct (Nat.eqb_spec r p); destruct (Nat.eqb_spec q i); destruct (Nat.eqb_spec r i); apply H2 in K; lia.
Qed.
Lemma transform_spec a ix j p up T v : perm_on n ix -> (1 <= p <= n)%nat -> ix p = j -> house p m v (a j) up T ->
  exists a', transform_rest m n a ix j p up = Some a' /\ (forall q l, (p < q <= n)%nat -> (1 <= l <= m)%nat -> a' (ix q) l = T (a (ix q)) l) /\
    forall c, (forall q, (p < q <= n)%nat -> ix q <> c) -> a' c = a c.
Proof.
  intros HP Hp Ej HT. unfold transform_rest.
  assert (K : exists a', loop (S p) n (fun jz a => match a with
    | None => None
    | Some a => match h12_apply p (S p) m (a j) up (a (ix jz)) with None => None | Some c => Some (put a (ix jz) c) end
    end) (Some a) = Some a' /\ (forall q l, (p < q < S n)%nat -> (1 <= l <= m)%nat -> a' (ix q) l = T (a (ix q)) l) /\ forall c, (forall q, (p < q < S n)%nat -> ix q <> c) -> a' c = a c).
  { apply (loop_ind (fun i oa => exists a', oa = Some a' /\ (forall q l, (p < q < i)%nat -> (1 <= l <= m)%nat -> a' (ix q) l = T (a (ix q)) l) /\ forall c, (forall q, (p < q < i)%nat -> ix q <> c) -> a' c = a c) (S p) n); [lia| |].
    - exists a. split; [reflexivity|]. split; [intros q l Hq; lia|reflexivity].
    - intros i oa Hi (a' & -> & H1 & H2).
      assert (NE : forall q r, (p <= q <= n)%nat -> (p <= r <= n)%nat -> q <> r -> ix q <> ix r) by (intros q r Hq Hr N E; apply (proj2 HP) in E; lia).
      rewrite (H2 j) by (intros q Hq; rewrite <- Ej; apply NE; lia).
      rewrite (H2 (ix i)) by (intros q Hq; apply NE; lia).
      destruct (ho_apply _ _ _ _ _ _ HT (a (ix i))) as (c & EC & HC). rewrite EC. eexists. split; [reflexivity|]. split.
      + intros q l Hq Hl. destruct (Nat.eq_dec q i) as [->|N]; [rewrite put_same; apply HC; exact Hl|]. rewrite put_other by (apply NE; lia). apply H1; [lia|exact Hl].
      + intros c' Hc. rewrite put_other by (intros ->; apply (Hc i); [lia|reflexivity]). apply H2. intros q Hq. apply Hc. lia. }
  destruct K as (a' & E & H1 & H2). exists a'. split; [exact E|]. split; [intros q l Hq; apply H1; lia|]. intros c Hc. apply H2. intros q Hq. apply Hc. lia.
Qed.
(** after a column has entered and the system is solved, the invariant of the secondary loop holds *)
Lemma accept_spec s iz u up T zz : main_inv s -> (s_np s < n)%nat -> (s_np s < m)%nat -> (s_np s < iz <= n)%nat ->
  house (S (s_np s)) m (s_a s (s_ix s iz)) u up T -> (forall l, (1 <= l <= m)%nat -> zz l = T (s_b s) l) -> 0 < zz (S (s_np s)) / u (S (s_np s)) ->
  exists s1 s2, accept m n (St (put (s_a s) (s_ix s iz) u) (s_b s) (s_x s) (s_w s) zz (s_ix s) (s_np s) (s_it s)) iz (s_ix s iz) up = Some s1 /\
    solve_triangular s1 = Some s2 /\ inner_inv s2 /\ s_it s2 = s_it s.
Proof.
  intros (HB & HX & _) Hn Hm Hz HT Hzz Ht. unfold accept. cbn [s_np s_ix s_a s_b s_x s_w s_zz s_it]. set (p := S (s_np s)) in *. set (j := s_ix s iz) in *.
  set (ix := put (put (s_ix s) iz (s_ix s p)) p j). pose proof (ba_perm s HB) as HP.
  assert (HP' : perm_on n ix) by (apply swap_perm; [exact HP|lia|lia]).
  assert (Ip : ix p = j) by apply put_same.
  assert (Il : forall q, (q < p)%nat -> ix q = s_ix s q) by (intros q Hq; unfold ix; rewrite !put_other by lia; reflexivity).
  destruct (transform_spec (put (s_a s) j u) ix j p up T (s_a s j) HP' ltac:(lia) Ip) as (a' & EA & A1 & A2); [rewrite put_same; exact HT|].
  rewrite EA. set (af := put a' j _).
  assert (NE : forall q r, (1 <= q <= n)%nat -> (1 <= r <= n)%nat -> q <> r -> ix q <> ix r) by (intros q r Hq Hr N E; apply (proj2 HP') in E; lia).
  assert (Aj : forall l, (1 <= l <= m)%nat -> af j l = T (s_a s j) l).
  { intros l Hl. unfold af. rewrite put_same. rewrite A2 by (intros q Hq; rewrite <- Ip; apply NE; lia). rewrite put_same. rewrite (ho_col _ _ _ _ _ _ HT l Hl).
    rewrite (proj2 (Nat.leb_le l m)) by lia. rewrite andb_true_r. destruct (Nat.leb_spec (S p) l); destruct (Nat.leb_spec l p); lia || reflexivity. }
  assert (Al : forall q, (1 <= q < p)%nat -> af (ix q) = s_a s (s_ix s q)).
  { intros q Hq. assert (N : ix q <> j) by (rewrite <- Ip; apply NE; lia). unfold af. rewrite put_other by exact N. rewrite A2 by (intros r Hr; apply NE; lia). rewrite put_other by exact N. rewrite Il by lia. reflexivity. }
  assert (Ar : forall q l, (p < q <= n)%nat -> (1 <= l <= m)%nat -> af (ix q) l = T (s_a s (ix q)) l).
  { intros q l Hq Hl. assert (N : ix q <> j) by (rewrite <- Ip; apply NE; lia). unfold af. rewrite put_other by exact N. rewrite A1 by assumption. rewrite put_other by exact N. reflexivity. }
  pose proof (ba_tri s HB) as TR.
  assert (TR' : tri af ix p).
  { intros q Hq. destruct (Nat.eq_dec q p) as [->|N].
    - rewrite Ip. split.
      + rewrite Aj by lia. rewrite (ho_col _ _ _ _ _ _ HT) by lia. rewrite Nat.leb_refl. apply (ho_pivot _ _ _ _ _ _ HT).
      + intros l Hl. rewrite Aj by lia. rewrite (ho_col _ _ _ _ _ _ HT) by lia. destruct (Nat.leb_spec l p); [lia|reflexivity].
    - rewrite Al by lia. apply TR. lia. }
  assert (RS : forall y, res2 m n af zz y = res2 m n a0 b0 y).
  { intros y. rewrite <- (ba_res s HB y). apply (res2_isometry m n T); [apply (ho_iso _ _ _ _ _ _ HT)| |exact Hzz].
    intros c l Hc Hl. destruct (perm_surj n ix c HP' Hc) as (q & Hq & <-). destruct (lt_eq_lt_dec q p) as [[L|E]|G].
    - rewrite Al by lia. rewrite Il by lia. symmetry. apply (ho_fix _ _ _ _ _ _ HT); [|exact Hl]. intros r Hr. apply (proj2 (TR q ltac:(lia))). lia.
    - subst q. rewrite Ip. apply Aj. exact Hl.
    - apply Ar; [lia|exact Hl]. }
  set (s1 := St af zz (s_x s) (put (s_w s) j 0) zz ix p (s_it s)).
  assert (Xj : s_x s j = 0) by (apply (ba_zero s HB); exact Hz).
  assert (B1 : base s1).
  { constructor; cbn [s1 s_np s_ix s_a s_b s_x s_w s_zz s_it]; try assumption; try lia.
    - intros q Hq. unfold ix. rewrite put_other by lia. unfold put. destruct (q =? iz)%nat; apply (ba_zero s HB); lia.
    - intros q Hq. destruct (Nat.eq_dec q p) as [->|N]; [rewrite Ip, Xj; lra|]. rewrite Il by lia. apply (ba_pos s HB). lia. }
  destruct (solve_spec s1 B1 eq_refl) as (zf & ES & R & L). exists s1, (St af zz (s_x s) (put (s_w s) j 0) zf ix p (s_it s)). split; [reflexivity|]. split; [exact ES|]. split; [|reflexivity].
  cbn [s1 s_np s_ix s_a s_b s_x s_w s_zz s_it] in R, L. split; [|split].
  - destruct B1 as [B1 B2 B3 B4 B5 B6 B7]. constructor; assumption.
  - cbn [s_np s_ix s_x s_zz]. intros q Hq Z. destruct (Nat.eq_dec q p) as [->|N].
    + rewrite L by lia. rewrite Ip, Aj by lia. rewrite (ho_col _ _ _ _ _ _ HT) by lia. rewrite Nat.leb_refl. exact Ht.
    + rewrite Il in Z by lia. pose proof (HX q ltac:(lia)). lra.
  - exact R.
Qed.

(** ** a column leaves *)
Lemma shift_spec a b ix np k : perm_on n ix -> (np <= n)%nat -> (np <= m)%nat -> tri a ix np -> (1 <= k <= np)%nat ->
  let '(a', b', ix') := loop (S k) np (shift n) (a, b, ix) in
  (forall q, ix' q = if (q <? k)%nat then ix q else if (q <? np)%nat then ix (S q) else ix q) /\
  (forall y, res2 m n a' b' y = res2 m n a b y) /\ tri a' ix' (np - 1).
Proof.
  intros HP Hn Hm HT Hk.
  set (Inv := fun (j : nat) (t : mat * vec * (nat -> nat)) => let '(a', b', ix') := t in
    (forall q, ix' q = if (q <? k)%nat then ix q else if (S q <? j)%nat then ix (S q) else ix q) /\
    (forall y, res2 m n a' b' y = res2 m n a b y) /\
    (forall q, (1 <= q)%nat -> (S q < j)%nat -> a' (ix' q) q <> 0 /\ forall l, (q < l <= m)%nat -> a' (ix' q) l = 0) /\
    (forall q, (j <= q <= np)%nat -> a' (ix q) q <> 0 /\ forall l, (q < l <= m)%nat -> a' (ix q) l = 0)).
  assert (K : Inv (S np) (loop (S k) np (shift n) (a, b, ix))).
  { apply (loop_ind Inv (S k) np); [lia| |].
    - unfold Inv. split; [|split; [|split]].
      + intros q. destruct (Nat.ltb_spec q k); [reflexivity|]. destruct (Nat.ltb_spec (S q) (S k)); [lia|reflexivity].
      + reflexivity.
      + intros q H1 H2. apply HT. lia.
      + intros q Hq. apply HT. lia.
    - intros j ((a1 & b1) & ix1) Hj (I1 & I2 & I3 & I4). unfold shift.
      assert (Ej : ix1 j = ix j) by (rewrite I1; destruct (Nat.ltb_spec j k); [lia|]; destruct (Nat.ltb_spec (S j) j); [lia|reflexivity]).
      rewrite Ej. pose proof (g1_spec (a1 (ix j) (j - 1)%nat) (a1 (ix j) j)) as G. destruct (g1 (a1 (ix j) (j - 1)%nat) (a1 (ix j) j)) as ((c & s) & sig). destruct G as (G1 & G2 & G3 & G4).
      pose proof (proj1 HP j ltac:(lia)) as Rj.
      set (a2 := fun l => if (l =? ix j)%nat then _ else _).
      assert (A2 : forall q l, (1 <= q <= n)%nat -> a2 q l = rotate j c s (a1 q) l).
      { intros q l Hq. unfold a2. destruct (Nat.eqb_spec q (ix j)) as [->|N].
        - rewrite rotate_at by lia. unfold put. destruct (l =? j)%nat; [symmetry; exact G3|]. destruct (l =? j - 1)%nat; [symmetry; exact G2|reflexivity].
        - rewrite (proj2 (Nat.leb_le 1 q)), (proj2 (Nat.leb_le q n)) by lia. reflexivity. }
      destruct (I4 j ltac:(lia)) as (Dj & Zj).
      assert (NE : forall q r, (1 <= q <= n)%nat -> (1 <= r <= n)%nat -> q <> r -> ix q <> ix r) by (intros q r Hq Hr N E; apply (proj2 HP) in E; lia).
      unfold Inv. split; [|split; [|split]].
      + intros q. unfold put. destruct (Nat.eqb_spec q (j - 1)) as [->|N].
        * destruct (Nat.ltb_spec (j - 1) k); [lia|]. destruct (Nat.ltb_spec (S (j - 1)) (S j)); [|lia]. f_equal. lia.
        * rewrite I1. destruct (Nat.ltb_spec q k); [reflexivity|]. destruct (Nat.ltb_spec (S q) j); destruct (Nat.ltb_spec (S q) (S j)); try lia; reflexivity.
      + intros y. rewrite <- (I2 y). apply (res2_isometry m n (rotate j c s)); [apply rotation_isometry; [lia|exact G1]|intros q l Hq _; apply A2; exact Hq|reflexivity].
      + intros q Q1 Q2. destruct (Nat.eq_dec q (j - 1)) as [->|N].
        * rewrite put_same. unfold a2. rewrite Nat.eqb_refl. split.
          -- rewrite put_other by lia. rewrite put_same. apply G4. exact Dj.
          -- intros l Hl. destruct (Nat.eq_dec l j) as [->|Nl]; [apply put_same|]. rewrite !put_other by lia. apply Zj. lia.
        * rewrite put_other by exact N. destruct (I3 q Q1 ltac:(lia)) as (D & Z).
          assert (Rq : (1 <= ix1 q <= n)%nat) by (rewrite I1; destruct (q <? k)%nat; [apply (proj1 HP); lia|]; destruct (S q <? j)%nat; apply (proj1 HP); lia).
          split.
          -- rewrite A2 by exact Rq. rewrite rotate_at by lia. destruct (Nat.eqb_spec q j); [lia|]. destruct (Nat.eqb_spec q (j - 1)); [lia|]. exact D.
          -- intros l Hl. rewrite A2 by exact Rq. rewrite rotate_at by lia. rewrite (Z j), (Z (j - 1)%nat) by lia. rewrite (Z l Hl). destruct (l =? j)%nat; [ring|]. destruct (l =? j - 1)%nat; [ring|reflexivity].
      + intros q Hq. destruct (I4 q ltac:(lia)) as (D & Z). pose proof (proj1 HP q ltac:(lia)) as Rq. split.
        * rewrite A2 by exact Rq. rewrite rotate_at by lia. destruct (Nat.eqb_spec q j); [lia|]. destruct (Nat.eqb_spec q (j - 1)); [lia|]. exact D.
        * intros l Hl. rewrite A2 by exact Rq. rewrite rotate_at by lia. destruct (Nat.eqb_spec l j); [lia|]. destruct (Nat.eqb_spec l (j - 1)); [lia|]. apply Z. lia. }
  destruct (loop (S k) np (shift n) (a, b, ix)) as ((a' & b') & ix'). destruct K as (I1 & I2 & I3 & _). split; [|split].
  - intros q. rewrite I1. destruct (Nat.ltb_spec q k); [reflexivity|]. destruct (Nat.ltb_spec (S q) (S np)); destruct (Nat.ltb_spec q np); lia || reflexivity.
  - exact I2.
  - intros q Hq. apply I3; lia.
Qed.
Lemma remove1_spec s k : base s -> (1 <= k <= s_np s)%nat -> base (remove1 n s k) /\ s_np (remove1 n s k) = (s_np s - 1)%nat /\ s_it (remove1 n s k) = s_it s.
Proof.
  intros HB Hk. unfold remove1. pose proof (shift_spec (s_a s) (s_b s) (s_ix s) (s_np s) k (ba_perm s HB) (ba_n s HB) (ba_m s HB) (ba_tri s HB) Hk) as K.
  destruct (loop (S k) (s_np s) (shift n) (s_a s, s_b s, s_ix s)) as ((a' & b') & ix'). destruct K as (K1 & K2 & K3). split; [|split; reflexivity].
  pose proof (ba_perm s HB) as (P1 & P2). pose proof (ba_n s HB) as Hn. pose proof (ba_m s HB) as Hm.
  set (pos := fun q => if (q =? s_np s)%nat then k else if (q <? k)%nat then q else if (q <? s_np s)%nat then S q else q).
  assert (E : forall q, put ix' (s_np s) (s_ix s k) q = s_ix s (pos q)).
  { intros q. unfold put, pos. destruct (q =? s_np s)%nat; [reflexivity|]. rewrite K1. destruct (q <? k)%nat; [reflexivity|]. destruct (q <? s_np s)%nat; reflexivity. }
  assert (Q1 : forall q, (1 <= q <= n)%nat -> (1 <= pos q <= n)%nat).
  { intros q Hq. unfold pos. destruct (Nat.eqb_spec q (s_np s)); [lia|]. destruct (Nat.ltb_spec q k); [lia|]. destruct (Nat.ltb_spec q (s_np s)); lia. }
  assert (Q2 : forall q r, pos q = pos r -> q = r).
  { intros q r. unfold pos. destruct (Nat.eqb_spec q (s_np s)); destruct (Nat.eqb_spec r (s_np s)); destruct (Nat.ltb_spec q k); destruct (Nat.ltb_spec r k); destruct (Nat.ltb_spec q (s_np s)); destruct (Nat.ltb_spec r (s_np s)); lia. }
  assert (Q3 : forall q, (1 <= q < s_np s)%nat -> (1 <= pos q <= s_np s)%nat /\ pos q <> k).
  { intros q Hq. unfold pos. destruct (Nat.eqb_spec q (s_np s)); [lia|]. destruct (Nat.ltb_spec q k); [lia|]. destruct (Nat.ltb_spec q (s_np s)); lia. }
  constructor; cbn [s_np s_ix s_a s_b s_x s_w s_zz s_it].
  - split.
    + intros q Hq. rewrite E. apply P1, Q1, Hq.
    + intros q r Hq Hr. rewrite !E. intros K. apply P2 in K; [|apply Q1; assumption|apply Q1; assumption]. apply Q2 in K. exact K.
  - lia.
  - lia.
  - intros q Hq. rewrite put_other by lia. apply K3. exact Hq.
  - intros y. rewrite K2. apply (ba_res s HB).
  - intros q Hq. rewrite E. destruct (Nat.eq_dec q (s_np s)) as [->|N].
    + unfold pos. rewrite Nat.eqb_refl. apply put_same.
    + assert (Ep : pos q = q). { unfold pos. destruct (Nat.eqb_spec q (s_np s)); [lia|]. destruct (Nat.ltb_spec q k); [lia|]. destruct (Nat.ltb_spec q (s_np s)); lia. }
      rewrite Ep. rewrite put_other by (intros K; apply P2 in K; lia). apply (ba_zero s HB). lia.
  - intros q Hq. rewrite E. destruct (Q3 q ltac:(lia)) as (R1 & R2). rewrite put_other by (intros K; apply P2 in K; lia). apply (ba_pos s HB). exact R1.
Qed.
Lemma remove_spec fuel s k : base s -> (1 <= k <= s_np s)%nat -> (s_np s < fuel)%nat -> exists s', remove m n fuel s k = Some s' /\ base s' /\
  (forall q, (1 <= q <= s_np s')%nat -> 0 < s_x s' (s_ix s' q)) /\ s_it s' = s_it s.
Proof.
  revert s k. induction fuel as [|fuel IH]; intros s k HB Hk Hf; [lia|]. cbn [remove].
  rewrite (proj2 (Nat.leb_le 1 k)), (proj2 (Nat.leb_le k (s_np s))) by lia. cbn [andb].
  destruct (remove1_spec s k HB Hk) as (HB' & En & Ei). rewrite (base_bounds _ HB').
  destruct (find (fun q => rle (s_x (remove1 n s k) (s_ix (remove1 n s k) q)) 0) (seq 1 (s_np (remove1 n s k)))) as [q|] eqn:F.
  - apply find_some in F as (F1 & F2). apply in_seq in F1. destruct (IH (remove1 n s k) q HB' ltac:(lia) ltac:(lia)) as (s' & E & B & P & I).
    exists s'. split; [exact E|]. split; [exact B|]. split; [exact P|]. congruence.
  - exists (remove1 n s k). split; [reflexivity|]. split; [exact HB'|]. split; [|exact Ei]. intros q Hq.
    pose proof (find_none _ _ F q ltac:(apply in_seq; lia)) as G. cbv beta in G. pose proof (rle_spec (s_x (remove1 n s k) (s_ix (remove1 n s k) q)) 0) as D. rewrite G in D. exact D.
Qed.

(** ** the secondary loop *)
Lemma ratio_spec s : inner_inv s -> exists alpha jj, ratio s = Some (alpha, jj) /\
  ((alpha = 2 /\ forall q, (1 <= q <= s_np s)%nat -> 0 < s_zz s q) \/
   (0 < alpha <= 1 /\ (1 <= jj <= s_np s)%nat /\ forall q, (1 <= q <= s_np s)%nat -> s_zz s q <= 0 -> alpha * (s_x s (s_ix s q) - s_zz s q) <= s_x s (s_ix s q))).
Proof.
  intros (HB & HZ & _). unfold ratio.
  match goal with |- context [loop 1 (s_np s) ?f ?c] => assert (K : (fun i oc => exists alpha jj, oc = Some (alpha, jj) /\
  ((alpha = 2 /\ forall q, (1 <= q < i)%nat -> 0 < s_zz s q) \/
   (0 < alpha <= 1 /\ (1 <= jj < i)%nat /\ forall q, (1 <= q < i)%nat -> s_zz s q <= 0 -> alpha * (s_x s (s_ix s q) - s_zz s q) <= s_x s (s_ix s q)))) (S (s_np s)) (loop 1 (s_np s) f c)) end.
  { apply (loop_ind (fun i oc => exists alpha jj, oc = Some (alpha, jj) /\
      ((alpha = 2 /\ forall q, (1 <= q < i)%nat -> 0 < s_zz s q) \/
       (0 < alpha <= 1 /\ (1 <= jj < i)%nat /\ forall q, (1 <= q < i)%nat -> s_zz s q <= 0 -> alpha * (s_x s (s_ix s q) - s_zz s q) <= s_x s (s_ix s q)))) 1 (s_np s)); [lia| |].
    - exists 2, 0%nat. split; [reflexivity|]. left. split; [reflexivity|]. intros q Hq. lia.
    - intros i oc Hi (alpha & jj & -> & IH). cbv zeta. pose proof (rle_spec (s_zz s i) 0) as D. destruct (rle (s_zz s i) 0).
      + pose proof (ba_pos s HB i Hi) as Px. set (xi := s_x s (s_ix s i)) in *. set (zi := s_zz s i) in *.
        assert (Hx : 0 < xi). { destruct (Rle_lt_or_eq_dec 0 xi Px) as [L|E]; [exact L|]. pose proof (HZ i Hi (eq_sym E)) as Q. fold zi in Q. lra. }
        rewrite req_no by lra. set (t := - xi / (zi - xi)).
        assert (Et : t * (xi - zi) = xi) by (unfold t; field; lra).
        assert (Ht : 0 < t <= 1). { assert (t = xi / (xi - zi)) by (unfold t; field; lra). split; [rewrite H; apply Rdiv_lt_0_compat; lra|]. apply Rmult_le_reg_r with (xi - zi); lra. }
        pose proof (rlt_spec t alpha) as L. destruct (rlt t alpha).
        * exists t, i. split; [reflexivity|]. right. split; [exact Ht|]. split; [lia|]. intros q Hq Zq. destruct (Nat.eq_dec q i) as [->|N]; [fold xi zi; lra|].
          destruct IH as [(_ & IH)|(IH1 & IH2 & IH)]; [pose proof (IH q ltac:(lia)); lra|]. pose proof (IH q ltac:(lia) Zq) as Q. pose proof (ba_pos s HB q ltac:(lia)) as Pq.
          apply Rle_trans with (alpha * (s_x s (s_ix s q) - s_zz s q)); [|exact Q]. apply Rmult_le_compat_r; lra.
        * exists alpha, jj. split; [reflexivity|]. destruct IH as [(E & _)|(IH1 & IH2 & IH)]; [lra|]. right. split; [exact IH1|]. split; [lia|].
          intros q Hq Zq. destruct (Nat.eq_dec q i) as [->|N]; [|apply IH; [lia|exact Zq]]. fold xi zi. rewrite <- Et at 2. apply Rmult_le_compat_r; lra.
      + exists alpha, jj. split; [reflexivity|]. destruct IH as [(E & IH)|(IH1 & IH2 & IH)].
        * left. split; [exact E|]. intros q Hq. destruct (Nat.eq_dec q i) as [->|N]; [exact D|apply IH; lia].
        * right. split; [exact IH1|]. split; [lia|]. intros q Hq Zq. destruct (Nat.eq_dec q i) as [->|N]; [lra|apply IH; [lia|exact Zq]]. }
  destruct K as (alpha & jj & E & K). exists alpha, jj. split; [exact E|]. destruct K as [(K1 & K2)|(K1 & K2 & K3)].
  - left. split; [exact K1|]. intros q Hq. apply K2. lia.
  - right. split; [exact K1|]. split; [lia|]. intros q Hq. apply K3. lia.
Qed.
(** a loop that rewrites the coefficients of set P *)
Lemma write_spec ix np (f : nat -> R -> R) x : perm_on n ix -> (np <= n)%nat ->
  let x' := loop 1 np (fun ip x => put x (ix ip) (f ip (x (ix ip)))) x in
  (forall q, (1 <= q <= np)%nat -> x' (ix q) = f q (x (ix q))) /\ forall q, (np < q <= n)%nat -> x' (ix q) = x (ix q).
Proof.
  intros HP Hn x'. assert (NE : forall q r, (1 <= q <= n)%nat -> (1 <= r <= n)%nat -> q <> r -> ix q <> ix r) by (intros q r Hq Hr N E; apply (proj2 HP) in E; lia).
  assert (K : (fun i x' => (forall q, (1 <= q < i)%nat -> x' (ix q) = f q (x (ix q))) /\ forall q, (i <= q <= n)%nat -> x' (ix q) = x (ix q)) (S np) x').
  { apply (loop_ind (fun i x' => (forall q, (1 <= q < i)%nat -> x' (ix q) = f q (x (ix q))) /\ forall q, (i <= q <= n)%nat -> x' (ix q) = x (ix q)) 1 np); [lia| |].
    - split; [intros q Hq; lia|reflexivity].
    - intros i t Hi (H1 & H2). split.
      + intros q Hq. destruct (Nat.eq_dec q i) as [->|N]; [rewrite put_same, H2 by lia; reflexivity|]. rewrite put_other by (apply NE; lia). apply H1. lia.
      + intros q Hq. rewrite put_other by (apply NE; lia). apply H2. lia. }
  destruct K as (K1 & K2). split; [intros q Hq; apply K1; lia|intros q Hq; apply K2; lia].
Qed.
Lemma inner_spec fuel s : inner_inv s -> (s_it s <= n * 5)%nat -> (n * 5 + 2 <= fuel + s_it s)%nat ->
  exists s' ok, inner m n fuel s = Some (s', ok) /\ base s' /\ (ok = true -> main_inv s' /\ (s_it s < s_it s' <= n * 5)%nat).
Proof.
  revert s. induction fuel as [|fuel IH]; intros s HI Hi Hf; [lia|]. cbn [inner]. pose proof (proj1 HI) as HB. rewrite (base_bounds s HB).
  set (s1 := St (s_a s) (s_b s) (s_x s) (s_w s) (s_zz s) (s_ix s) (s_np s) (S (s_it s))).
  assert (HI1 : inner_inv s1). { destruct HI as (B & Z & R). split; [|split; [exact Z|exact R]]. destruct B; constructor; assumption. }
  pose proof (proj1 HI1) as HB1. change (s_it s1) with (S (s_it s)). destruct (Nat.ltb_spec (n * 5) (S (s_it s))) as [L|L].
  - exists s1, false. split; [reflexivity|]. split; [exact HB1|]. discriminate.
  - destruct (ratio_spec s1 HI1) as (alpha & jj & ER & [(Ea & Hz)|(Ha & Hj & Hr)]); rewrite ER.
    + rewrite req_yes by exact Ea. eexists. exists true. split; [reflexivity|].
      destruct (write_spec (s_ix s1) (s_np s1) (fun q _ => s_zz s1 q) (s_x s1) (ba_perm s1 HB1) (ba_n s1 HB1)) as (W1 & W2).
      assert (HB2 : base (St (s_a s1) (s_b s1) (write_back s1) (s_w s1) (s_zz s1) (s_ix s1) (s_np s1) (S (s_it s)))).
      { pose proof HB1 as [B1 B2 B3 B4 B5 B6 B7]. constructor; try assumption; cbn [s_x s_ix s_np].
        - intros q Hq. unfold write_back. rewrite W2 by exact Hq. apply B6. exact Hq.
        - intros q Hq. unfold write_back. rewrite W1 by exact Hq. left. apply Hz. exact Hq. }
      split; [exact HB2|]. intros _. split; [|cbn [s_it]; lia]. split; [exact HB2|]. split; cbn [s_x s_ix s_np s_a s_b].
      * intros q Hq. unfold write_back. rewrite W1 by exact Hq. apply Hz. exact Hq.
      * intros r Hr. destruct HI1 as (_ & _ & T). rewrite <- (T r Hr). unfold trow. apply acc_ext. intros q Hq. unfold write_back. rewrite W1 by exact Hq. reflexivity.
    + rewrite req_no by lra.
      destruct (write_spec (s_ix s1) (s_np s1) (fun q v => v + alpha * (s_zz s1 q - v)) (s_x s1) (ba_perm s1 HB1) (ba_n s1 HB1)) as (W1 & W2).
      set (s2 := St (s_a s1) (s_b s1) (interpolate s1 alpha) (s_w s1) (s_zz s1) (s_ix s1) (s_np s1) (S (s_it s))).
      assert (HB2 : base s2).
      { pose proof HB1 as [B1 B2 B3 B4 B5 B6 B7]. constructor; try assumption; cbn [s2 s_x s_ix s_np].
        - intros q Hq. unfold interpolate. rewrite W2 by exact Hq. apply B6. exact Hq.
        - intros q Hq. unfold interpolate. rewrite W1 by exact Hq. pose proof (B7 q Hq) as Px. destruct (Rle_lt_dec (s_zz s1 q) 0) as [G|G].
          + pose proof (Hr q Hq G). lra.
          + nra. }
      destruct (remove_spec (S (s_np s1)) s2 jj HB2 Hj ltac:(cbn [s2 s_np]; lia)) as (s3 & E3 & HB3 & P3 & I3). rewrite E3. clear E3.
      set (s4 := St (s_a s3) (s_b s3) (s_x s3) (s_w s3) (s_b s3) (s_ix s3) (s_np s3) (s_it s3)).
      assert (HB4 : base s4) by (destruct HB3; constructor; assumption).
      destruct (solve_spec s4 HB4 eq_refl) as (zz & ES & R & _). rewrite ES. cbn [s2 s_it] in I3.
      set (s5 := St (s_a s4) (s_b s4) (s_x s4) (s_w s4) zz (s_ix s4) (s_np s4) (s_it s4)).
      assert (HI5 : inner_inv s5).
      { split; [destruct HB4; constructor; assumption|]. split; [|exact R]. intros q Hq Z. pose proof (P3 q Hq) as K. change (s_x s3 (s_ix s3 q) = 0) in Z. lra. }
      destruct (IH s5 HI5) as (s' & ok & E & B & K); [change (s_it s5) with (s_it s3); lia|change (s_it s5) with (s_it s3); lia|].
      exists s', ok. split; [exact E|]. split; [exact B|]. intros Hok. destruct (K Hok) as (K1 & K2). split; [exact K1|]. change (s_it s5) with (s_it s3) in K2. lia.
Qed.

(** ** the main loop *)
(** what holds when mode 1 is reported: no entry of the dual vector is positive *)
Definition stopped (s : st) : Prop := main_inv s /\ forall q, (s_np s < q <= n)%nat -> acc (fun l => s_a s (s_ix s q) l * s_b s l) (S (s_np s)) m <= 0.
Lemma main_spec fuel s : main_inv s -> (s_it s <= n * 5)%nat -> (n * 5 + 2 <= fuel + s_it s)%nat ->
  exists s' mode, main m n fuel s = Some (s', mode) /\ base s' /\ ((mode = 1%nat /\ stopped s') \/ mode = 3%nat).
Proof.
  revert s. induction fuel as [|fuel IH]; intros s HI Hi Hf; [lia|]. cbn [main]. pose proof (proj1 HI) as HB. rewrite (base_bounds s HB).
  pose proof (ba_n s HB) as Hn. pose proof (ba_m s HB) as Hm.
  destruct (Nat.ltb_spec n (S (s_np s))) as [L|L]; cbn [orb].
  { exists s, 1%nat. split; [reflexivity|]. split; [exact HB|]. left. split; [reflexivity|]. split; [exact HI|]. intros q Hq. lia. }
  destruct (Nat.leb_spec m (s_np s)) as [L2|L2].
  { exists s, 1%nat. split; [reflexivity|]. split; [exact HB|]. left. split; [reflexivity|]. split; [exact HI|]. intros q Hq. rewrite acc_empty by lia. lra. }
  set (s1 := St (s_a s) (s_b s) (s_x s) (dual m n s) (s_zz s) (s_ix s) (s_np s) (s_it s)).
  assert (HI1 : main_inv s1). { destruct HI as (B & P & R). split; [|split; [exact P|exact R]]. destruct B; constructor; assumption. }
  assert (HD : dual_ok s1) by (intros q Hq; apply (dual_spec s (ba_perm s HB) Hn q Hq)).
  destruct (choose_spec n s1 (proj1 HI1) HD L ltac:(exact L2)) as [(E & W)|(iz & u & up & T & zz & E & Hz & HT & Hzz & Ht)]; rewrite E; clear E.
  - exists s1, 1%nat. split; [reflexivity|]. split; [apply HI1|]. left. split; [reflexivity|]. split; [exact HI1|]. intros q Hq. rewrite <- (HD q Hq). apply W. exact Hq.
  - destruct (accept_spec s1 iz u up T zz HI1 L L2 Hz HT Hzz Ht) as (s2 & s3 & E2 & E3 & HI3 & I3). rewrite E2, E3. change (s_it s1) with (s_it s) in I3.
    destruct (inner_spec (n * 5 + 2) s3 HI3 ltac:(lia) ltac:(lia)) as (s4 & ok & E4 & B4 & K4). rewrite E4. destruct ok.
    + destruct (K4 eq_refl) as (HI4 & I4). apply IH; [exact HI4|lia|lia].
    + exists s4, 3%nat. split; [reflexivity|]. split; [exact B4|]. right. reflexivity.
Qed.
Lemma start_inv : (forall y, res2 m n a0 b0 y = res2 m n a0 b0 y) -> main_inv (start a0 b0).
Proof.
  intros _. split; [constructor; cbn [start s_np s_ix s_a s_b s_x s_w s_zz s_it]|split; cbn [start s_np]].
  - split; auto.
  - lia.
  - lia.
  - intros q Hq. lia.
  - reflexivity.
  - reflexivity.
  - intros q Hq. lia.
  - intros q Hq. lia.
  - intros q Hq. lia.
Qed.

(** ** what the final state means *)
Lemma rowsum_P s y l : base s -> (forall q, (s_np s < q <= n)%nat -> y (s_ix s q) = 0) -> rowsum n (s_a s) y l = trow (s_a s) (s_ix s) (s_np s) (fun q => y (s_ix s q)) l.
Proof.
  intros HB Hy. rewrite (rowsum_perm n (s_ix s)) by apply (ba_perm s HB). pose proof (ba_n s HB). rewrite (acc_split _ 1 (s_np s) n) by lia.
  rewrite (acc_zero _ (S (s_np s)) n) by (intros q Hq; rewrite Hy by lia; ring). unfold trow. ring.
Qed.
Lemma trow_below s z l : base s -> (s_np s < l <= m)%nat -> trow (s_a s) (s_ix s) (s_np s) z l = 0.
Proof. intros HB Hl. unfold trow. apply acc_zero. intros q Hq. rewrite (proj2 (ba_tri s HB q ltac:(lia)) l) by lia. ring. Qed.
Lemma x_nonneg s j : base s -> (1 <= j <= n)%nat -> 0 <= s_x s j.
Proof.
  intros HB Hj. destruct (perm_surj n (s_ix s) j (ba_perm s HB) Hj) as (q & Hq & <-). destruct (le_lt_dec q (s_np s)) as [L|L].
  - apply (ba_pos s HB). lia.
  - rewrite (ba_zero s HB) by lia. lra.
Qed.
Definition tail2 (s : st) : R := acc (fun i => s_b s i * s_b s i) (S (s_np s)) m.
Lemma tail_nonneg s : 0 <= tail2 s.
Proof. apply acc_nonneg. intros. nra. Qed.
Lemma tail_lower s : base s -> tail2 s <= res2 m n a0 b0 (s_x s).
Proof.
  intros HB. rewrite <- (ba_res s HB). unfold res2. pose proof (ba_m s HB). rewrite (acc_split _ 1 (s_np s) m) by lia.
  rewrite (acc_ext _ (fun i => s_b s i * s_b s i) (S (s_np s)) m).
  - assert (0 <= acc (fun l => (rowsum n (s_a s) (s_x s) l - s_b s l) * (rowsum n (s_a s) (s_x s) l - s_b s l)) 1 (s_np s)) by (apply acc_nonneg; intros; apply Rle_0_sqr). fold (tail2 s). lra.
  - intros l Hl. rewrite (rowsum_P s) by (exact HB || apply (ba_zero s HB)). rewrite trow_below by (exact HB || lia). ring.
Qed.
Lemma tail_exact s : main_inv s -> res2 m n a0 b0 (s_x s) = tail2 s.
Proof.
  intros (HB & _ & HR). rewrite <- (ba_res s HB). unfold res2. pose proof (ba_m s HB). rewrite (acc_split _ 1 (s_np s) m) by lia.
  rewrite (acc_zero _ 1 (s_np s)).
  - rewrite Rplus_0_l. unfold tail2. apply acc_ext. intros l Hl. rewrite (rowsum_P s) by (exact HB || apply (ba_zero s HB)). rewrite trow_below by (exact HB || lia). ring.
  - intros l Hl. rewrite (rowsum_P s) by (exact HB || apply (ba_zero s HB)). rewrite (HR l) by lia. ring.
Qed.
(** the Kuhn-Tucker conditions make the result the best one *)
Lemma tail_minimal s y : stopped s -> (forall j, (1 <= j <= n)%nat -> 0 <= y j) -> tail2 s <= res2 m n a0 b0 y.
Proof.
  intros (HI & HW) Hy. pose proof HI as (HB & _ & HR). rewrite <- (ba_res s HB). unfold res2. pose proof (ba_m s HB). pose proof (ba_n s HB). rewrite (acc_split _ 1 (s_np s) m) by lia.
  assert (P1 : 0 <= acc (fun l => (rowsum n (s_a s) y l - s_b s l) * (rowsum n (s_a s) y l - s_b s l)) 1 (s_np s)) by (apply acc_nonneg; intros; apply Rle_0_sqr).
  assert (P2 : acc (fun l => s_b s l * s_b s l + -2 * (rowsum n (s_a s) y l * s_b s l)) (S (s_np s)) m <= acc (fun l => (rowsum n (s_a s) y l - s_b s l) * (rowsum n (s_a s) y l - s_b s l)) (S (s_np s)) m) by (apply acc_le; intros l Hl; pose proof (Rle_0_sqr (rowsum n (s_a s) y l)) as Q; unfold Rsqr in Q; lra).
  rewrite acc_plus, acc_scal in P2. fold (tail2 s) in P2.
  assert (P3 : acc (fun l => rowsum n (s_a s) y l * s_b s l) (S (s_np s)) m <= 0); [|lra].
  rewrite (acc_ext _ (fun l => acc (fun q => y (s_ix s q) * (s_a s (s_ix s q) l * s_b s l)) 1 n)).
  - rewrite acc_swap. rewrite (acc_ext _ (fun q => y (s_ix s q) * acc (fun l => s_a s (s_ix s q) l * s_b s l) (S (s_np s)) m)) by (intros q Hq; apply acc_scal).
    assert (K : 0 <= acc (fun q => -1 * (y (s_ix s q) * acc (fun l => s_a s (s_ix s q) l * s_b s l) (S (s_np s)) m)) 1 n).
    { apply acc_nonneg. intros q Hq. pose proof (Hy (s_ix s q) (proj1 (ba_perm s HB) q Hq)) as Yq. destruct (le_lt_dec q (s_np s)) as [L|L].
      - rewrite (acc_zero _ (S (s_np s)) m) by (intros l Hl; rewrite (proj2 (ba_tri s HB q ltac:(lia)) l) by lia; ring). lra.
      - pose proof (HW q ltac:(lia)). nra. }
    rewrite acc_scal in K. lra.
  - intros l Hl. rewrite (rowsum_perm n (s_ix s)) by apply (ba_perm s HB). rewrite Rmult_comm, <- acc_scal. apply acc_ext. intros q Hq. ring.
Qed.
(** the positive coefficients are those of at most m columns *)
Lemma support s : base s -> (length (List.filter (fun j => rlt 0 (s_x s j)) (seq 1 n)) <= m)%nat.
Proof.
  intros HB. pose proof (ba_m s HB). pose proof (ba_n s HB). apply Nat.le_trans with (length (map (s_ix s) (seq 1 (s_np s)))); [|rewrite map_length, seq_length; lia].
  apply NoDup_incl_length; [apply NoDup_filter, seq_NoDup|]. intros j Hj. apply filter_In in Hj as (H1 & H2). apply in_seq in H1.
  destruct (perm_surj n (s_ix s) j (ba_perm s HB) ltac:(lia)) as (q & Hq & <-). destruct (le_lt_dec q (s_np s)) as [L|L].
  - apply in_map. apply in_seq. lia.
  - rewrite (ba_zero s HB) in H2 by lia. rewrite rlt_no in H2 by lra. discriminate.
Qed.
End Loop.

Theorem run_spec m n a b : (1 <= m)%nat -> (1 <= n)%nat -> exists x r mode, nnls_run m n a b = Some (x, Some r, mode) /\
  (forall j, (1 <= j <= n)%nat -> 0 <= x j) /\ 0 <= r /\ (length (List.filter (fun j => rlt 0 (x j)) (seq 1 n)) <= m)%nat /\ r * r <= res2 m n a b x /\
  ((mode = 1%nat /\ r * r = res2 m n a b x /\ forall y, (forall j, (1 <= j <= n)%nat -> 0 <= y j) -> r * r <= res2 m n a b y) \/ mode = 3%nat).
Proof.
  intros Hm Hn. unfold nnls_run. destruct (Nat.leb_spec m 0); [lia|]. destruct (Nat.leb_spec n 0); [lia|]. cbn [orb].
  destruct (main_spec m n a b (n * 5 + 2) (start a b) (start_inv m n a b (fun y => eq_refl)) ltac:(cbn [start s_it]; lia) ltac:(cbn [start s_it]; lia)) as (s & mode & E & HB & K).
  rewrite E. exists (s_x s), (rnorm m s), mode. split; [reflexivity|]. pose proof (tail_nonneg m s) as T0.
  assert (ER : rnorm m s * rnorm m s = tail2 m s) by (apply sqrt_sqrt; exact T0). rewrite ER.
  split; [intros j Hj; apply (x_nonneg m n a b s j HB Hj)|]. split; [apply sqrt_pos|]. split; [apply (support m n a b s HB)|]. split; [apply (tail_lower m n a b s HB)|].
  destruct K as [(-> & K)|K]; [left|right; exact K]. split; [reflexivity|]. split; [symmetry; apply (tail_exact m n a b s), K|]. intros y Hy. apply (tail_minimal m n a b s y K Hy).
Qed.
