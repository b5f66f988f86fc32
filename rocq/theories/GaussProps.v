(** Properties C19, C20: the Gauss rules of untrimmed elements. *)
From Coq Require Import Arith Reals QArith Qreals List Bool Lra Lia Psatz.
From Verif Require Import Geo GgqModel GgqProofs GaussTable Ggq1dModel GaussModel GaussProofs MappingModel MappingProps.
Import ListNotations.
Local Open Scope R_scope.

(** ** specification vocabulary *)
(** polynomials in three variables: monomials c x^i y^j z^k *)
Definition poly := list (R * (nat * nat * nat)).
Definition peval (P : poly) (p : pt) : R :=
  rsum (map (fun m => let '(c, (i, j, k)) := m in c * (px p ^ i * py p ^ j * pz p ^ k)) P).
(** integral over a box *)
Definition pint1 (a b : R) (n : nat) : R := (b ^ (n + 1) - a ^ (n + 1)) / INR (n + 1).
Definition pintegral (B : box) (P : poly) : R :=
  rsum (map (fun m => let '(c, (i, j, k)) := m in
    c * (pint1 (px (lower B)) (px (upper B)) i * pint1 (py (lower B)) (py (upper B)) j * pint1 (pz (lower B)) (pz (upper B)) k)) P).
(** size of the polynomial on the box: sum over the monomials of |c| times the volume times upper bounds of the powers *)
Definition reach (a b : R) (n : nat) : R := (b - a) * (Rabs a + (b - a)) ^ n.
Definition psize (B : box) (P : poly) : R :=
  rsum (map (fun m => let '(c, (i, j, k)) := m in
    Rabs c * (reach (px (lower B)) (px (upper B)) i * reach (py (lower B)) (py (upper B)) j * reach (pz (lower B)) (pz (upper B)) k)) P).
(** the number of points in one direction and the degree that is integrated *)
Definition points_1d (meth : gauss) (o : nat) : nat := match meth with Gauss => o + 1 | GaussReduced1 => o | GaussReduced2 => o - 1 end.
Definition order_ok (meth : gauss) (o : nat) : Prop :=
  match meth with Gauss => o <= 9 | GaussReduced1 => 1 <= o <= 10 | GaussReduced2 => 2 <= o <= 11 end%nat.
Definition degree_ok (meth : gauss) (o i : nat) : Prop := (i < 2 * points_1d meth o)%nat.
Definition degrees_ok (meth : gauss) (ou ov ow : nat) (P : poly) : Prop :=
  forall c i j k, In (c, (i, j, k)) P -> degree_ok meth ou i /\ degree_ok meth ov j /\ degree_ok meth ow k.

(** [pint1] is the integral: the difference of any antiderivative *)
Lemma pint1_is_integral : forall n F a b, (forall x, derivable_pt_lim F x (x ^ n)) -> a <= b -> F b - F a = pint1 a b n.
Proof.
  intros n F a b HF Hab. set (G := fun x => x ^ (n + 1) / INR (n + 1)).
  assert (Hn : INR (n + 1) <> 0) by (apply not_0_INR; lia).
  assert (HG : forall x, derivable_pt_lim G x (x ^ n)).
  { intros x. unfold G. replace (x ^ n) with (/ INR (n + 1) * (INR (n + 1) * x ^ n)) by (field; assumption).
    assert (E : forall y, y ^ (n + 1) / INR (n + 1) = mult_real_fct (/ INR (n + 1)) (fun y => y ^ (n + 1)) y) by (intros y; unfold mult_real_fct; field; assumption).
    intros eps Heps. pose proof (derivable_pt_lim_scal (fun y => y ^ (n + 1)) (/ INR (n + 1)) x (INR (n + 1) * x ^ n)) as K.
    assert (K0 : derivable_pt_lim (fun y => y ^ (n + 1)) x (INR (n + 1) * x ^ n)).
    { pose proof (derivable_pt_lim_pow x (n + 1)) as K1. replace (pred (n + 1)) with n in K1 by lia. exact K1. }
    destruct (K K0 eps Heps) as (d & Hd). exists d. intros h Hh1 Hh2. rewrite !E. apply Hd; assumption. }
  destruct Hab as [Hab| ->]; [|unfold pint1; field; assumption].
  assert (HD : derivable (F - G)%F).
  { intros x. exists (x ^ n - x ^ n). apply derivable_pt_lim_minus; [apply HF|apply HG]. }
  assert (K : constant (F - G)%F).
  { apply null_derivative_1 with HD. intros x. rewrite (derive_pt_eq_0 _ _ 0); [reflexivity|].
    replace 0 with (x ^ n - x ^ n) by ring. apply derivable_pt_lim_minus; [apply HF|apply HG]. }
  specialize (K a b). unfold minus_fct, G in K. unfold pint1. field_simplify_eq; [|assumption].
  assert (F a - F b = (a ^ (n + 1) - b ^ (n + 1)) / INR (n + 1)) as K' by (unfold Rdiv in *; lra).
  apply (f_equal (fun z => z * INR (n + 1))) in K'. unfold Rdiv in K'. rewrite (Rmult_assoc (a ^ (n + 1) - b ^ (n + 1))), Rinv_l in K' by assumption. lra.
Qed.

(** ** C19 *)
Lemma get_gauss_some o meth : order_ok meth o <-> exists l, get_gauss o meth = Some l.
Proof.
  assert (T : length gauss_legendre = 10%nat) by reflexivity.
  assert (N : forall j, (j < 10)%nat <-> exists l, nth_error gauss_legendre j = Some l).
  { intros j. rewrite <- T, <- nth_error_Some. destruct (nth_error gauss_legendre j) as [l|]; split.
    - intros _. exists l. reflexivity.
    - intros _. discriminate.
    - intros H. contradiction.
    - intros (l & H). discriminate. }
  unfold order_ok, get_gauss. destruct meth.
  - rewrite <- N. lia.
  - destruct (Nat.ltb_spec o 1); [split; [lia|intros (l & H'); discriminate]|]. rewrite <- N. lia.
  - destruct (Nat.ltb_spec o 2); [split; [lia|intros (l & H'); discriminate]|]. rewrite <- N. lia.
Qed.
Lemma assemble_some b ou ov ow meth pts : assemble_ips b (ou, ov, ow) meth = Some pts ->
  exists u v w, get_gauss ou meth = Some u /\ get_gauss ov meth = Some v /\ get_gauss ow meth = Some w /\
    pts = assemble_loops (lower b) (upper b) (real_rule u) (real_rule v) (real_rule w).
Proof.
  unfold assemble_ips. destruct (get_gauss ou meth) as [u|]; [|discriminate]. destruct (get_gauss ov meth) as [v|]; [|discriminate].
  destruct (get_gauss ow meth) as [w|]; [|discriminate]. intros H. exists u, v, w. injection H as <-. auto.
Qed.

Lemma rtol_small : 0 <= rtol <= / 10.
Proof. unfold rtol. split; [left; apply Rinv_0_lt_compat, pow_lt; lra|]. apply Rinv_le_contravar; [lra|]. simpl. lra. Qed.
Lemma mono_case b ou ov ow meth pts i j k : box_ok b -> assemble_ips b (ou, ov, ow) meth = Some pts ->
  degree_ok meth ou i -> degree_ok meth ov j -> degree_ok meth ow k ->
  Rabs (rsum (map (fun q => ip_weight q * mono i j k (ip_pos q)) pts) -
        pint1 (px (lower b)) (px (upper b)) i * pint1 (py (lower b)) (py (upper b)) j * pint1 (pz (lower b)) (pz (upper b)) k) <=
  4 * rtol * (reach (px (lower b)) (px (upper b)) i * reach (py (lower b)) (py (upper b)) j * reach (pz (lower b)) (pz (upper b)) k).
Proof.
  intros Hb H Hi Hj Hk. destruct (assemble_some _ _ _ _ _ _ H) as (u & v & w & Eu & Ev & Ew & ->).
  rewrite tensor_applied. pose proof (Hb AX) as Hx. pose proof (Hb AY) as Hy. pose proof (Hb AZ) as Hz. simpl in Hx, Hy, Hz.
  destruct (get_gauss_ok _ _ _ Eu) as (Ru & Lu). destruct (get_gauss_ok _ _ _ Ev) as (Rv & Lv). destruct (get_gauss_ok _ _ _ Ew) as (Rw & Lw).
  rewrite (Rabs_right (px (upper b) - px (lower b))), (Rabs_right (py (upper b) - py (lower b))), (Rabs_right (pz (upper b) - pz (lower b))) by lra.
  assert (S : forall (x y : R) n, pint1 x y n = mono_integral x (y - x) n) by (intros; unfold pint1, mono_integral; f_equal; f_equal; f_equal; ring).
  rewrite !S. change (reach ?x ?y ?n) with (mono_bound x (y - x) n). unfold degree_ok in *.
  apply product_error; [apply rtol_small| | | | | |]; try (apply mono_integral_bound; lra);
    apply applied_error; try assumption; try lra; try (rewrite Lu; assumption); try (rewrite Lv; assumption); try (rewrite Lw; assumption).
Qed.

Lemma gauss_exact b ou ov ow meth pts P : box_ok b -> assemble_ips b (ou, ov, ow) meth = Some pts -> degrees_ok meth ou ov ow P ->
  Rabs (rsum (map (fun q => ip_weight q * peval P (ip_pos q)) pts) - pintegral b P) <= 4 * rtol * psize b P.
Proof.
  intros Hb H. induction P as [|(c & ((i & j) & k)) P IH]; intros Hd.
  - unfold peval, pintegral, psize. simpl. rewrite Rmult_0_r, Rminus_0_r.
    assert (E : rsum (map (fun q : ipoint => ip_weight q * 0) pts) = 0).
    { rewrite (rsum_ext _ (fun q => 0 * ip_weight q)) by (intros; ring). rewrite rsum_map_mult. ring. }
    rewrite E, Rabs_R0. lra.
  - destruct (Hd c i j k (or_introl eq_refl)) as (Hi & Hj & Hk).
    assert (Hd' : degrees_ok meth ou ov ow P) by (intros c' i' j' k' HI; apply (Hd c' i' j' k'); right; assumption).
    specialize (IH Hd'). pose proof (mono_case b ou ov ow meth pts i j k Hb H Hi Hj Hk) as M.
    assert (E : rsum (map (fun q => ip_weight q * peval ((c, (i, j, k)) :: P) (ip_pos q)) pts) =
      c * rsum (map (fun q => ip_weight q * mono i j k (ip_pos q)) pts) + rsum (map (fun q => ip_weight q * peval P (ip_pos q)) pts)).
    { clear. induction pts as [|q pts IHp]; cbn [map rsum fold_right]; [ring|]. unfold rsum in *. rewrite IHp. unfold peval, mono. cbn [map rsum fold_right]. unfold rsum. ring. }
    rewrite E. unfold pintegral, psize. cbn [map]. cbn [rsum fold_right]. fold (rsum) in *.
    fold (pintegral b P). fold (psize b P).
    match goal with |- Rabs (c * ?A + ?B - (c * ?D + ?F)) <= _ => replace (c * A + B - (c * D + F)) with (c * (A - D) + (B - F)) by ring end.
    eapply Rle_trans; [apply Rabs_triang|]. rewrite Rabs_mult, Rmult_plus_distr_l. apply Rplus_le_compat; [|exact IH].
    eapply Rle_trans; [apply Rmult_le_compat_l; [apply Rabs_pos|exact M]|]. right. ring.
Qed.
Theorem C19_gauss_integrates_polynomials : forall b ou ov ow meth pts P,
  box_ok b -> assemble_ips b (ou, ov, ow) meth = Some pts -> degrees_ok meth ou ov ow P ->
  Rabs (rsum (map (fun q => ip_weight q * peval P (ip_pos q)) pts) - pintegral b P) <= 4 * rtol * psize b P.
Proof. exact gauss_exact. Qed.
Print Assumptions C19_gauss_integrates_polynomials.

(** ** C20 *)
Lemma loops_in lo up u v w q : In q (assemble_loops lo up u v w) ->
  exists a b c, In a u /\ In b v /\ In c w /\
    q = IP (Pt (px lo + Rabs (px up - px lo) * fst a) (py lo + Rabs (py up - py lo) * fst b) (pz lo + Rabs (pz up - pz lo) * fst c))
           (snd a * Rabs (px up - px lo) * snd b * Rabs (py up - py lo) * snd c * Rabs (pz up - pz lo)).
Proof.
  unfold assemble_loops. rewrite in_flat_map. intros (a & Ha & H). apply in_flat_map in H. destruct H as (b & Hb & H).
  apply in_map_iff in H. destruct H as (c & <- & Hc). exists a, b, c. auto.
Qed.
Lemma loops_length lo up u v w : length (assemble_loops lo up u v w) = (length u * length v * length w)%nat.
Proof.
  unfold assemble_loops. induction u as [|a u IH]; [reflexivity|]. cbn [flat_map]. rewrite app_length, IH. cbn [length Nat.mul].
  rewrite Nat.mul_add_distr_r. f_equal. clear. induction v as [|b v IHv]; [reflexivity|]. cbn [flat_map]. rewrite app_length, map_length, IHv. cbn [length]. lia.
Qed.

Lemma gauss_points b ou ov ow meth : box_ok b -> order_ok meth ou -> order_ok meth ov -> order_ok meth ow ->
  exists pts, assemble_ips b (ou, ov, ow) meth = Some pts /\
    length pts = (points_1d meth ou * points_1d meth ov * points_1d meth ow)%nat /\
    forall q, In q pts -> in_open b (ip_pos q) /\ 0 < ip_weight q.
Proof.
  intros Hb Hu Hv Hw. apply get_gauss_some in Hu, Hv, Hw. destruct Hu as (u & Eu). destruct Hv as (v & Ev). destruct Hw as (w & Ew).
  exists (assemble_loops (lower b) (upper b) (real_rule u) (real_rule v) (real_rule w)). split.
  { unfold assemble_ips. rewrite Eu, Ev, Ew. reflexivity. }
  destruct (get_gauss_ok _ _ _ Eu) as ([_ Ru] & Lu). destruct (get_gauss_ok _ _ _ Ev) as ([_ Rv] & Lv). destruct (get_gauss_ok _ _ _ Ew) as ([_ Rw] & Lw).
  split.
  - rewrite loops_length. unfold real_rule. rewrite !map_length, Lu, Lv, Lw. reflexivity.
  - intros q Hq. apply loops_in in Hq. destruct Hq as (x & y & z & Hx & Hy & Hz & ->). apply Ru in Hx. apply Rv in Hy. apply Rw in Hz.
    pose proof (Hb AX) as Bx. pose proof (Hb AY) as By. pose proof (Hb AZ) as Bz. simpl in Bx, By, Bz. cbn [ip_pos ip_weight].
    rewrite !Rabs_right by lra. split.
    + intros a. destruct a; cbn [at_ px py pz]; split; nra.
    + repeat apply Rmult_lt_0_compat; lra.
Qed.
Theorem C20_gauss_points_inside_positive_counted : forall b ou ov ow meth,
  box_ok b -> order_ok meth ou -> order_ok meth ov -> order_ok meth ow ->
  exists pts, assemble_ips b (ou, ov, ow) meth = Some pts /\
    length pts = (points_1d meth ou * points_1d meth ov * points_1d meth ow)%nat /\
    forall q, In q pts -> in_open b (ip_pos q) /\ 0 < ip_weight q.
Proof. exact gauss_points. Qed.
Print Assumptions C20_gauss_points_inside_positive_counted.

Lemma gauss_volume eb ou ov ow meth pts : bounds_ok eb -> assemble_ips (eb_param eb) (ou, ov, ow) meth = Some pts ->
  Rabs (rsum (map (fun q => ip_weight q * det_j eb) pts) - box_volume (eb_global eb)) <= 4 * rtol * box_volume (eb_global eb).
Proof.
  intros Hb H. pose proof Hb as (Hg & Hp).
  assert (O : order_ok meth ou /\ order_ok meth ov /\ order_ok meth ow).
  { destruct (assemble_some _ _ _ _ _ _ H) as (u & v & w & Eu & Ev & Ew & _). rewrite !get_gauss_some. split; [|split]; eauto. }
  assert (D : forall o, order_ok meth o -> degree_ok meth o 0) by (intros o; unfold order_ok, degree_ok, points_1d; destruct meth; lia).
  pose proof (mono_case (eb_param eb) ou ov ow meth pts 0 0 0 Hp H (D _ (proj1 O)) (D _ (proj1 (proj2 O))) (D _ (proj2 (proj2 O)))) as M.
  set (W := rsum (map (fun q => ip_weight q * mono 0 0 0 (ip_pos q)) pts)) in M.
  assert (EV : pint1 (px (lower (eb_param eb))) (px (upper (eb_param eb))) 0 * pint1 (py (lower (eb_param eb))) (py (upper (eb_param eb))) 0 *
    pint1 (pz (lower (eb_param eb))) (pz (upper (eb_param eb))) 0 = box_volume (eb_param eb)) by (unfold pint1, box_volume; simpl; field).
  assert (ER : reach (px (lower (eb_param eb))) (px (upper (eb_param eb))) 0 * reach (py (lower (eb_param eb))) (py (upper (eb_param eb))) 0 *
    reach (pz (lower (eb_param eb))) (pz (upper (eb_param eb))) 0 = box_volume (eb_param eb)) by (unfold reach, box_volume; simpl; ring).
  rewrite EV, ER in M. pose proof (box_volume_pos _ Hp) as Vp. pose proof (det_j_pos _ Hb) as Dj. pose proof (det_j_eq _ Hb) as EJ.
  assert (Eg : box_volume (eb_global eb) = det_j eb * box_volume (eb_param eb)) by (rewrite EJ; field; lra).
  assert (Ew : rsum (map (fun q => ip_weight q * det_j eb) pts) = det_j eb * W).
  { unfold W. rewrite <- rsum_map_mult. apply rsum_ext. intros q. unfold mono. simpl. ring. }
  rewrite Ew, Eg, <- Rmult_minus_distr_l, Rabs_mult, (Rabs_right (det_j eb)) by lra.
  eapply Rle_trans; [apply Rmult_le_compat_l; [lra|exact M]|]. right. ring.
Qed.
Theorem C20_gauss_weights_sum_to_cell_volume : forall eb ou ov ow meth pts,
  bounds_ok eb -> assemble_ips (eb_param eb) (ou, ov, ow) meth = Some pts ->
  Rabs (rsum (map (fun q => ip_weight q * det_j eb) pts) - box_volume (eb_global eb)) <= 4 * rtol * box_volume (eb_global eb).
Proof. exact gauss_volume. Qed.
Print Assumptions C20_gauss_weights_sum_to_cell_volume.

(** instance: order (2,3,2) on a box, x^5 y^7 is integrated *)
Example C19_example : exists b pts, box_ok b /\ assemble_ips b (2, 3, 2)%nat Gauss = Some pts /\ length pts = 36%nat /\
  degrees_ok Gauss 2 3 2 [(1, (5, 7, 0)%nat)] /\
  Rabs (rsum (map (fun q => ip_weight q * peval [(1, (5, 7, 0)%nat)] (ip_pos q)) pts) - pintegral b [(1, (5, 7, 0)%nat)]) <= 4 * rtol * psize b [(1, (5, 7, 0)%nat)].
Proof.
  assert (Hb : box_ok (Box (Pt 0 0 0) (Pt 1 2 3))) by (intros []; simpl; lra).
  destruct (C20_gauss_points_inside_positive_counted (Box (Pt 0 0 0) (Pt 1 2 3)) 2 3 2 Gauss Hb ltac:(simpl; lia) ltac:(simpl; lia) ltac:(simpl; lia)) as (pts & E & L & _).
  assert (Hd : degrees_ok Gauss 2 3 2 [(1, (5, 7, 0)%nat)]).
  { intros c i j k [H|[]]. injection H as <- <- <- <-. unfold degree_ok, points_1d. lia. }
  exists (Box (Pt 0 0 0) (Pt 1 2 3)), pts. split; [exact Hb|]. split; [exact E|]. split; [rewrite L; reflexivity|]. split; [exact Hd|].
  apply (C19_gauss_integrates_polynomials _ 2 3 2 Gauss); assumption.
Qed.
Example C20_example : exists eb pts, bounds_ok eb /\ assemble_ips (eb_param eb) (1, 1, 1)%nat GaussReduced1 = Some pts /\ length pts = 1%nat.
Proof.
  assert (Hb : box_ok (Box (Pt 0 0 0) (Pt 1 2 3))) by (intros []; simpl; lra).
  destruct (C20_gauss_points_inside_positive_counted (Box (Pt 0 0 0) (Pt 1 2 3)) 1 1 1 GaussReduced1 Hb ltac:(simpl; lia) ltac:(simpl; lia) ltac:(simpl; lia)) as (pts & E & L & _).
  exists (EB (Box (Pt 0 0 0) (Pt 1 2 3)) (Box (Pt 0 0 0) (Pt 1 2 3))), pts. split; [split; exact Hb|]. split; [exact E|]. exact L.
Qed.
