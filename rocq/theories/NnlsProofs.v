(** The transformations of the non-negative least squares solver. *)
From Coq Require Import Arith Reals List Bool Lra Lia Permutation.
From Verif Require Import NnlsModel NnlsSums.
Import ListNotations.
Local Open Scope R_scope.

Lemma rle_spec x y : if rle x y then x <= y else y < x.
Proof. unfold rle. destruct (Rle_dec x y); lra. Qed.
Lemma rlt_spec x y : if rlt x y then x < y else y <= x.
Proof. unfold rlt. destruct (Rlt_dec x y); lra. Qed.
Lemma rle_yes x y : x <= y -> rle x y = true.
Proof. intros H. pose proof (rle_spec x y). destruct (rle x y); [reflexivity|lra]. Qed.
Lemma rle_no x y : y < x -> rle x y = false.
Proof. intros H. pose proof (rle_spec x y). destruct (rle x y); [lra|reflexivity]. Qed.
Lemma rlt_yes x y : x < y -> rlt x y = true.
Proof. intros H. pose proof (rlt_spec x y). destruct (rlt x y); [reflexivity|lra]. Qed.
Lemma rlt_no x y : y <= x -> rlt x y = false.
Proof. intros H. pose proof (rlt_spec x y). destruct (rlt x y); [lra|reflexivity]. Qed.
Lemma req_no x y : x <> y -> req x y = false.
Proof. intros H. unfold req. destruct (Req_EM_T x y); [contradiction|reflexivity]. Qed.
Lemma req_yes x y : x = y -> req x y = true.
Proof. intros H. unfold req. destruct (Req_EM_T x y); [reflexivity|contradiction]. Qed.
Lemma put_same {A : Type} (f : nat -> A) i v : put f i v i = v.
Proof. unfold put. rewrite Nat.eqb_refl. reflexivity. Qed.
Lemma put_other {A : Type} (f : nat -> A) i v k : k <> i -> put f i v k = f k.
Proof. intros H. unfold put. apply Nat.eqb_neq in H. rewrite H. reflexivity. Qed.

(** induction along a loop *)
Lemma loop_ind {S : Type} (P : nat -> S -> Prop) lo hi body s : (lo <= Datatypes.S hi)%nat -> P lo s ->
  (forall i t, (lo <= i <= hi)%nat -> P i t -> P (Datatypes.S i) (body i t)) -> P (Datatypes.S hi) (loop lo hi body s).
Proof.
  intros Hlo H0 HS. unfold loop. remember (Datatypes.S hi - lo)%nat as k eqn:Ek. revert lo s Hlo H0 HS Ek.
  induction k as [|k IH]; intros lo s Hlo H0 HS Ek; cbn [seq fold_left].
  - replace (Datatypes.S hi) with lo by lia. exact H0.
  - apply IH; [lia|apply HS; [lia|exact H0]|intros i t Hi; apply HS; lia|lia].
Qed.
Lemma loop_empty {S : Type} lo hi (body : nat -> S -> S) s : (hi < lo)%nat -> loop lo hi body s = s.
Proof. intros H. unfold loop. replace (Datatypes.S hi - lo)%nat with 0%nat by lia. reflexivity. Qed.

Lemma abs_nonneg x : 0 <= Rabs x. Proof. apply Rabs_pos. Qed.
Lemma abs_sq x : Rabs x * Rabs x = x * x. Proof. rewrite <- Rabs_mult. apply Rabs_right. nra. Qed.

(** ** the Householder transformation *)
Lemma largest p l1 m u : (l1 <= S m)%nat ->
  let cl := loop l1 m (fun j cl => if rle cl (Rabs (u j)) then Rabs (u j) else cl) (Rabs (u p)) in
  Rabs (u p) <= cl /\ forall l, (l1 <= l <= m)%nat -> Rabs (u l) <= cl.
Proof.
  intros H cl. assert (K : Rabs (u p) <= cl /\ forall l, (l1 <= l < S m)%nat -> Rabs (u l) <= cl).
  { apply (loop_ind (fun i cl => Rabs (u p) <= cl /\ forall l, (l1 <= l < i)%nat -> Rabs (u l) <= cl) l1 m); [exact H| |].
    - split; [lra|]. intros l Hl. lia.
    - intros i t Hi (H1 & H2). pose proof (rle_spec t (Rabs (u i))) as D. destruct (rle t (Rabs (u i))).
      + split; [lra|]. intros l Hl. destruct (Nat.eq_dec l i) as [->|N]; [lra|]. pose proof (H2 l ltac:(lia)). lra.
      + split; [lra|]. intros l Hl. destruct (Nat.eq_dec l i) as [->|N]; [lra|]. apply H2. lia. }
  destruct K as (H1 & H2). split; [exact H1|]. intros l Hl. apply H2. lia.
Qed.
Lemma acc_square_pos (u : vec) lo hi k : (lo <= k <= hi)%nat -> u k <> 0 -> 0 < acc (fun l => u l * u l) lo hi.
Proof.
  intros Hk H. apply Rlt_le_trans with (u k * u k); [nra|].
  apply Rle_trans with (acc (fun l => if (l =? k)%nat then u l * u l else 0) lo hi).
  - rewrite (acc_one _ lo hi k Hk); [rewrite Nat.eqb_refl; lra|]. intros l Hl N. apply Nat.eqb_neq in N. rewrite N. reflexivity.
  - apply acc_le. intros l Hl. destruct (l =? k)%nat; nra.
Qed.

(** construction: the new pivot entry and the scalar up *)
Lemma make_spec p m u k : (1 <= p < m)%nat -> (p <= k <= m)%nat -> u k <> 0 ->
  exists s, h12_make p (S p) m u = (put u p s, Some (u p - s)) /\ s * s = acc (fun l => u l * u l) p m /\ s * u p <= 0 /\ s <> 0.
Proof.
  intros Hp Hk Hu. unfold h12_make. replace (h12_idle p (S p) m) with false.
  2:{ symmetry. unfold h12_idle. destruct (Nat.eqb_spec p 0); [lia|]. destruct (Nat.leb_spec (S p) p); [lia|]. destruct (Nat.ltb_spec m (S p)); [lia|reflexivity]. }
  pose proof (largest p (S p) m u ltac:(lia)) as (L1 & L2). set (cl := loop (S p) m _ _) in *.
  assert (Hc : 0 < cl). { pose proof (Rabs_pos_lt _ Hu). destruct (Nat.eq_dec k p) as [->|N]; [lra|]. pose proof (L2 k ltac:(lia)). lra. }
  rewrite rle_no by exact Hc. set (sm := u p * (1 / cl) * (u p * (1 / cl)) + _). set (N := acc (fun l => u l * u l) p m).
  assert (Es : sm = N / (cl * cl)).
  { unfold sm, N. rewrite (acc_first _ p m) by lia. rewrite (acc_ext (fun j => u j * (1 / cl) * (u j * (1 / cl))) (fun j => (/ cl * / cl) * (u j * u j))) by (intros; field; lra).
    rewrite acc_scal. field. lra. }
  pose proof (acc_square_pos u p m k Hk Hu) as HN. fold N in HN.
  assert (Hs : 0 < sm). { rewrite Es. apply Rdiv_lt_0_compat; nra. }
  assert (Eq : cl * sqrt sm * (cl * sqrt sm) = N).
  { transitivity (cl * cl * (sqrt sm * sqrt sm)); [ring|]. rewrite sqrt_sqrt by lra. rewrite Es. field. lra. }
  pose proof (sqrt_lt_R0 sm Hs) as Hq. assert (Hcl : 0 < cl * sqrt sm) by (apply Rmult_lt_0_compat; assumption).
  set (v := cl * sqrt sm) in *. exists (if rle (u p) 0 then v else - v). split; [reflexivity|].
  pose proof (rle_spec (u p) 0) as D. destruct (rle (u p) 0); (split; [|split]); nra.
Qed.
Lemma make_idle p m u : (m <= p)%nat -> h12_make p (S p) m u = (u, None).
Proof.
  intros H. unfold h12_make. replace (h12_idle p (S p) m) with true; [reflexivity|].
  unfold h12_idle. destruct (Nat.ltb_spec m (S p)); [|lia]. rewrite orb_true_r. reflexivity.
Qed.
Lemma apply_idle p m u up c : (m <= p)%nat -> h12_apply p (S p) m u up c = Some c.
Proof.
  intros H. unfold h12_apply. replace (h12_idle p (S p) m) with true; [reflexivity|].
  unfold h12_idle. destruct (Nat.ltb_spec m (S p)); [|lia]. rewrite orb_true_r. reflexivity.
Qed.

(** the transformation of one column, as the solver uses it *)
Record house (p m : nat) (v u : vec) (up : option R) (T : vec -> vec) : Prop := House {
  ho_iso : isometry m T;
  ho_apply : forall c, exists c', h12_apply p (S p) m u up c = Some c' /\ forall l, (1 <= l <= m)%nat -> c' l = T c l;
  ho_fix : forall c, (forall l, (p <= l <= m)%nat -> c l = 0) -> forall l, (1 <= l <= m)%nat -> T c l = c l;
  ho_above : forall c l, (1 <= l < p)%nat -> T c l = c l;
  ho_col : forall l, (1 <= l <= m)%nat -> T v l = if (l <=? p)%nat then u l else 0;
  ho_pivot : u p <> 0;
  ho_same : forall l, l <> p -> u l = v l;
  ho_dual : forall c, T c p * u p = acc (fun l => v l * c l) p m }.
Lemma householder p m v k : (1 <= p <= m)%nat -> (p <= k <= m)%nat -> v k <> 0 ->
  exists u up T, h12_make p (S p) m v = (u, up) /\ house p m v u up T.
Proof.
  intros Hp Hk Hv. destruct (Nat.eq_dec p m) as [E|N].
  - subst m. replace k with p in * by lia. exists v, None, (fun c => c). split; [apply make_idle; lia|].
    constructor; auto; try (intros; apply identity_isometry).
    + intros c. exists c. split; [apply apply_idle; lia|auto].
    + intros l Hl. destruct (Nat.leb_spec l p); [reflexivity|lia].
    + intros c. rewrite (acc_one _ p p p); [ring|lia|]. intros l Hl K. lia.
  - destruct (make_spec p m v k ltac:(lia) Hk Hv) as (s & E & Es & Hs & Hz). set (up := v p - s) in *. set (beta := up * s).
    assert (Hb : beta < 0) by (unfold beta, up; nra).
    set (w := fun l => if (l <? p)%nat then 0 else if (l =? p)%nat then up else v l).
    assert (Wp : w p = up) by (unfold w; rewrite Nat.ltb_irrefl, Nat.eqb_refl; reflexivity).
    assert (Wr : forall l, (p < l)%nat -> w l = v l) by (intros l Hl; unfold w; destruct (Nat.ltb_spec l p); [lia|]; destruct (Nat.eqb_spec l p); [lia|reflexivity]).
    assert (Wl : forall l, (l < p)%nat -> w l = 0) by (intros l Hl; unfold w; destruct (Nat.ltb_spec l p); [reflexivity|lia]).
    rewrite (acc_first _ p m) in Es by lia.
    assert (Wn : normsq m w = -2 * beta).
    { unfold normsq. rewrite (acc_split _ 1 (p - 1) m) by lia. rewrite (acc_zero _ 1 (p - 1)) by (intros l Hl; rewrite Wl by lia; ring). replace (S (p - 1)) with p by lia.
      rewrite (acc_first _ p m) by lia. rewrite (acc_ext _ (fun l => v l * v l) (S p) m) by (intros l Hl; rewrite Wr by lia; reflexivity). rewrite Wp. unfold beta, up. nra. }
    assert (Wd : forall c, acc (fun k => w k * c k) p m = up * c p + acc (fun k => v k * c k) (S p) m).
    { intros c. rewrite (acc_first _ p m) by lia. rewrite Wp. f_equal. apply acc_ext. intros l Hl. rewrite Wr by lia. reflexivity. }
    exists (put v p s), (Some up), (fun c l => c l + acc (fun k => w k * c k) p m / beta * w l). split; [exact E|]. constructor.
    + apply reflection_isometry; [lia|lra|exact Wl|exact Wn].
    + intros c. unfold h12_apply. replace (h12_idle p (S p) m) with false.
      2:{ symmetry. unfold h12_idle. destruct (Nat.eqb_spec p 0); [lia|]. destruct (Nat.leb_spec (S p) p); [lia|]. destruct (Nat.ltb_spec m (S p)); [lia|reflexivity]. }
      rewrite put_same. rewrite rle_no by (apply Rabs_pos_lt; exact Hz). fold beta. rewrite rle_no by exact Hb.
      rewrite (acc_ext (fun i => c i * put v p s i) (fun i => v i * c i)) by (intros l Hl; rewrite put_other by lia; ring).
      replace (c p * up + acc (fun i => v i * c i) (S p) m) with (acc (fun k => w k * c k) p m) by (rewrite Wd; ring). set (g := acc (fun k => w k * c k) p m).
      unfold req. destruct (Req_EM_T g 0) as [Z|Z].
      * exists c. split; [reflexivity|]. intros l _. fold g. rewrite Z. field. lra.
      * eexists. split; [reflexivity|]. intros l Hl. cbv beta. fold g. destruct (Nat.eqb_spec l p) as [->|Nl]; [rewrite Wp; field; lra|].
        destruct (Nat.leb_spec (S p) l); destruct (Nat.leb_spec l m); cbn [andb]; try lia.
        -- rewrite put_other by lia. rewrite Wr by lia. field. lra.
        -- rewrite Wl by lia. ring.
    + intros c Hc l Hl. rewrite (acc_zero _ p m) by (intros q Hq; rewrite Hc by exact Hq; ring). field. lra.
    + intros c l Hl. rewrite Wl by lia. ring.
    + intros l Hl. rewrite Wd. replace (up * v p + acc (fun k => v k * v k) (S p) m) with (- beta) by (unfold beta, up; nra).
      replace (- beta / beta) with (-1) by (field; lra). destruct (Nat.leb_spec l p) as [L|L].
      * destruct (Nat.eq_dec l p) as [->|Nl]; [rewrite put_same, Wp; unfold up; ring|]. rewrite put_other by exact Nl. rewrite Wl by lia. ring.
      * rewrite Wr by lia. ring.
    + rewrite put_same. exact Hz.
    + intros l Hl. apply put_other. exact Hl.
    + intros c. rewrite put_same, Wp, Wd. rewrite (acc_first _ p m) by lia. set (q := acc (fun k => v k * c k) (S p) m).
      replace (v p) with (up + s) by (unfold up; ring). unfold beta. field. split; [exact Hz|]. unfold beta in Hb. nra.
Qed.

(** ** the Givens rotation *)
Lemma g1_spec a b : let '(c, s, sig) := g1 a b in
  c * c + s * s = 1 /\ c * a + s * b = sig /\ - s * a + c * b = 0 /\ (b <> 0 -> sig <> 0).
Proof.
  unfold g1. pose proof (rlt_spec (Rabs b) (Rabs a)) as D. destruct (rlt (Rabs b) (Rabs a)).
  - assert (Ha : a <> 0) by (intros ->; rewrite Rabs_R0 in D; pose proof (Rabs_pos b); lra).
    set (xr := b / a). assert (Hy : 0 < xr * xr + 1) by nra. pose proof (sqrt_lt_R0 _ Hy) as Hq. pose proof (sqrt_sqrt (xr * xr + 1) ltac:(lra)) as Q. set (yr := sqrt (xr * xr + 1)) in *.
    assert (Ei : Rabs (1 / yr) = 1 / yr) by (apply Rabs_right; apply Rle_ge; left; apply Rdiv_lt_0_compat; lra).
    assert (Eb : b = xr * a) by (unfold xr; field; exact Ha).
    unfold d_sign. rewrite Ei. pose proof (rle_spec 0 a) as Da.
    assert (U : 1 / yr * (1 / yr) * (1 + xr * xr) = 1) by (rewrite Rplus_comm, <- Q; field; lra).
    assert (V : 1 / yr * (1 + xr * xr) = yr) by (rewrite Rplus_comm, <- Q; field; lra).
    destruct (rle 0 a).
    + rewrite (Rabs_right a) by lra. split; [nra|]. split; [|split].
      * transitivity (a * (1 / yr * (1 + xr * xr))); [rewrite Eb; ring|rewrite V; ring].
      * rewrite Eb. ring.
      * intros _. nra.
    + rewrite (Rabs_left a) by lra. split; [nra|]. split; [|split].
      * transitivity (- a * (1 / yr * (1 + xr * xr))); [rewrite Eb; ring|rewrite V; ring].
      * rewrite Eb. ring.
      * intros _. nra.
  - unfold req. destruct (Req_EM_T b 0) as [Z|Z].
    + subst b. rewrite Rabs_R0 in D. assert (a = 0) by (destruct (Req_dec a 0) as [K|K]; [exact K|pose proof (Rabs_pos_lt a K); lra]). subst a.
      split; [ring|]. split; [ring|]. split; [ring|]. intros K. contradiction.
    + set (xr := a / b). assert (Hy : 0 < xr * xr + 1) by nra. pose proof (sqrt_lt_R0 _ Hy) as Hq. pose proof (sqrt_sqrt (xr * xr + 1) ltac:(lra)) as Q. set (yr := sqrt (xr * xr + 1)) in *.
      assert (Ei : Rabs (1 / yr) = 1 / yr) by (apply Rabs_right; apply Rle_ge; left; apply Rdiv_lt_0_compat; lra).
      assert (Eb : a = xr * b) by (unfold xr; field; exact Z).
      unfold d_sign. rewrite Ei. pose proof (rle_spec 0 b) as Da.
      assert (U : 1 / yr * (1 / yr) * (1 + xr * xr) = 1) by (rewrite Rplus_comm, <- Q; field; lra).
      assert (V : 1 / yr * (1 + xr * xr) = yr) by (rewrite Rplus_comm, <- Q; field; lra).
      destruct (rle 0 b).
      * rewrite (Rabs_right b) by lra. split; [nra|]. split; [|split].
        -- transitivity (b * (1 / yr * (1 + xr * xr))); [rewrite Eb; ring|rewrite V; ring].
        -- rewrite Eb. ring.
        -- intros _. nra.
      * rewrite (Rabs_left b) by lra. split; [nra|]. split; [|split].
        -- transitivity (- b * (1 / yr * (1 + xr * xr))); [rewrite Eb; ring|rewrite V; ring].
        -- rewrite Eb. ring.
        -- intros _. nra.
Qed.
