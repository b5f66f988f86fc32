(** Property C43: integration points of triangles. *)
From Coq Require Import Reals QArith Qreals List Arith Lia Lra Factorial.
From Verif Require Import Geo MappingModel TrimmedQuadModel MeshModel MeshGeoModel MeshGeoProofs MeshBoxProofs TriIpModel.
Import ListNotations.
Local Open Scope R_scope.

(** The tables. *)
Definition bary0 (q : tip) : Q := let '(x, y, w) := q in (1 - x - y)%Q.
Definition bary1 (q : tip) : Q := let '(x, y, w) := q in x.
Definition bary2 (q : tip) : Q := let '(x, y, w) := q in y.
Definition weight_of (q : tip) : Q := let '(x, y, w) := q in w.
(** The mean value of the product of powers of the barycentric coordinates over a triangle:
    2 a! b! c! / (a + b + c + 2)!. *)
Definition mean (a b c : nat) : R := 2 * INR (fact a) * INR (fact b) * INR (fact c) / INR (fact (a + b + c + 2)).
(** The degree of exactness of each method. *)
Definition degree (meth : nat) : nat := match meth with 0 => 1 | 1 => 2 | 2 => 4 | _ => 6 end%nat.

Definition point_ok (q : tip) : bool :=
  (Qle_bool 0 (bary0 q) && Qle_bool 0 (bary1 q) && Qle_bool 0 (bary2 q) && Qle_bool (1 # 100) (weight_of q))%bool.
(** The checks are done on integers: all numbers of the tables are multiples of 1 / (6 * 10^21). *)
Definition scale : positive := 6000000000000000000000.
Definition scaled (q : Q) : Z := (Qnum q * (Zpos scale / QDen q))%Z.
Definition scales (q : tip) : bool :=
  forallb (fun n => (QDen n * (Zpos scale / QDen n) =? Zpos scale)%Z) [bary1 q; bary2 q; weight_of q].
Definition zpoint (q : tip) : Z * Z * Z * Z :=
  let x := scaled (bary1 q) in let y := scaled (bary2 q) in (Zpos scale - x - y, x, y, scaled (weight_of q))%Z.
Fixpoint zpow (x : Z) (n : nat) : Z := match n with O => 1 | S n => x * zpow x n end%Z.
Definition zterm (a b c : nat) (p : Z * Z * Z * Z) : Z := let '(x, y, z, w) := p in (2 * w * (zpow x a * zpow y b * zpow z c))%Z.
Fixpoint zsum (f : Z * Z * Z * Z -> Z) (l : list (Z * Z * Z * Z)) : Z := match l with [] => 0 | p :: l => f p + zsum f l end%Z.
Fixpoint zfact (n : nat) : Z := match n with O => 1 | S n => Z.of_nat (S n) * zfact n end%Z.
(** Moments of total degree n, up to 3^-n 10^-13. *)
Definition moment_ok (n : nat) (l : list (Z * Z * Z * Z)) (a b c : nat) : bool :=
  (Z.abs (zsum (zterm a b c) l * zfact (n + 2) - 2 * zfact a * zfact b * zfact c * zpow (Zpos scale) (S n)) * (zpow 3 n * 10 ^ 13)
    <=? zfact (n + 2) * zpow (Zpos scale) (S n))%Z.
Definition range (n : nat) : list nat := seq 0 (S n).
Definition moments_ok (n : nat) (l : list tip) : bool :=
  let zl := map zpoint l in
  forallb (fun a => forallb (fun b => moment_ok n zl a b (n - a - b)) (range (n - a))) (range n).
Definition table_ok (n : nat) (l : list tip) : bool := (forallb point_ok l && forallb scales l && moments_ok n l)%bool.
Lemma table1_ok : table_ok 1 tri_points1 = true.
Proof. vm_compute. reflexivity. Qed.
Lemma table2_ok : table_ok 2 tri_points2 = true.
Proof. vm_compute. reflexivity. Qed.
Lemma table3_ok : table_ok 4 tri_points3 = true.
Proof. vm_compute. reflexivity. Qed.
Lemma table4_ok : table_ok 6 tri_points4 = true.
Proof. vm_compute. reflexivity. Qed.
Lemma some_inj {A} (x y : A) : Some x = Some y -> x = y.
Proof. intros E. exact (f_equal (fun o => match o with Some z => z | None => x end) E). Qed.
Lemma tables_ok meth l : tri_table meth = Some l -> table_ok (degree meth) l = true.
Proof.
  destruct meth as [|[|[|[|[|meth]]]]]; cbn [tri_table degree]; intros E; [..|discriminate E]; apply some_inj in E; subst l.
  - exact table1_ok.
  - exact table2_ok.
  - exact table3_ok.
  - exact table4_ok.
  - exact table4_ok.
Qed.

Lemma q2r_scaled q n : (QDen q * n =? Zpos scale)%Z = true -> Q2R q = IZR (Qnum q * n) / IZR (Zpos scale).
Proof.
  intros H. apply Z.eqb_eq in H. rewrite <- H, !mult_IZR. unfold Q2R.
  assert (IZR (QDen q) <> 0) by (apply not_0_IZR; discriminate).
  assert (IZR n <> 0) by (apply not_0_IZR; intros ->; rewrite Z.mul_0_r in H; discriminate). field. split; assumption.
Qed.
Lemma zpow_real x n : IZR (zpow x n) = IZR x ^ n.
Proof. induction n as [|n IH]; cbn [zpow pow]; [reflexivity|]. rewrite mult_IZR, IH. reflexivity. Qed.
Lemma zfact_real n : IZR (zfact n) = INR (fact n).
Proof.
  induction n as [|n IH]; cbn [zfact]; [reflexivity|]. rewrite mult_IZR, IH, <- INR_IZR_INZ.
  change (fact (S n)) with (S n * fact n)%nat. rewrite mult_INR. reflexivity.
Qed.
Lemma q2r_le a b : Qle_bool a b = true -> Q2R a <= Q2R b.
Proof. intros H. apply Qle_Rle, Qle_bool_iff, H. Qed.
Lemma q2r_0 : Q2R 0 = 0.
Proof. unfold Q2R. cbn. field. Qed.
Lemma q2r_1 : Q2R 1 = 1.
Proof. unfold Q2R. cbn. field. Qed.
Lemma bary0_real x y : Q2R (1 - x - y) = 1 - Q2R x - Q2R y.
Proof. rewrite !Q2R_minus, q2r_1. reflexivity. Qed.

Definition real_term (a b c : nat) (q : tip) : R := 2 * Q2R (weight_of q) * (Q2R (bary0 q) ^ a * Q2R (bary1 q) ^ b * Q2R (bary2 q) ^ c).
Lemma zterm_real a b c q : scales q = true -> IZR (zterm a b c (zpoint q)) = real_term a b c q * IZR (Zpos scale) ^ S (a + b + c).
Proof.
  destruct q as [[x y] w]. unfold scales, zpoint, zterm, real_term. cbn [forallb bary0 bary1 bary2 weight_of]. rewrite !andb_true_iff.
  intros (X & Y & W & _). unfold scaled.
  rewrite bary0_real, (q2r_scaled _ _ X), (q2r_scaled _ _ Y), (q2r_scaled _ _ W).
  generalize (Qnum x * (Zpos scale / QDen x))%Z (Qnum y * (Zpos scale / QDen y))%Z (Qnum w * (Zpos scale / QDen w))%Z. clear.
  intros x y w. rewrite !mult_IZR, !zpow_real, !minus_IZR. assert (N : IZR (Zpos scale) <> 0) by (apply not_0_IZR; discriminate).
  revert N. generalize (IZR (Zpos scale)). intros s N. cbn [pow]. rewrite !pow_add.
  transitivity (2 * IZR w * ((s - IZR x - IZR y) ^ a * IZR x ^ b * IZR y ^ c)); [reflexivity|].
  replace (s - IZR x - IZR y) with ((1 - IZR x / s - IZR y / s) * s) by (field; exact N).
  replace (IZR x) with (IZR x / s * s) at 2 by (field; exact N).
  replace (IZR y) with (IZR y / s * s) at 2 by (field; exact N). rewrite !Rpow_mult_distr. field. exact N.
Qed.
Lemma moment_real n l a b c : (a + b + c)%nat = n -> forallb scales l = true -> moment_ok n (map zpoint l) a b c = true ->
  Rabs (sum (real_term a b c) l - mean a b c) * 3 ^ n <= / 10 ^ 13.
Proof.
  intros Dn S M. unfold moment_ok in M. apply Z.leb_le, IZR_le in M.
  assert (E : IZR (zsum (zterm a b c) (map zpoint l)) = sum (real_term a b c) l * IZR (Zpos scale) ^ Datatypes.S (a + b + c)).
  { clear M. induction l as [|q l IH]; cbn [map zsum sum]; [cbn; ring|]. cbn [forallb] in S. apply andb_true_iff in S as [S0 S].
    rewrite plus_IZR, (IH S), (zterm_real _ _ _ _ S0). ring. }
  rewrite Dn in E. rewrite !mult_IZR, abs_IZR, minus_IZR, !mult_IZR, !zfact_real, !zpow_real, E in M.
  unfold mean. rewrite Dn. assert (F := INR_fact_lt_0 (n + 2)).
  assert (P : 0 < IZR (Zpos scale) ^ Datatypes.S n) by (apply pow_lt, IZR_lt; reflexivity).
  replace (IZR (10 ^ 13)) with (10 ^ 13) in M by (rewrite (pow_IZR 10 13); reflexivity).
  revert M F P. generalize (IZR (Zpos scale) ^ Datatypes.S n) (INR (fact (n + 2))) (sum (real_term a b c) l).
  intros s f r M F P.
  replace (r * s * f - 2 * INR (fact a) * INR (fact b) * INR (fact c) * s) with ((f * s) * (r - 2 * INR (fact a) * INR (fact b) * INR (fact c) / f)) in M
    by (field; lra).
  rewrite Rabs_mult, (Rabs_right (f * s)) in M by nra.
  apply (Rmult_le_reg_r (10 ^ 13)); [apply pow_lt; lra|]. rewrite Rinv_l by (apply pow_nonzero; lra).
  apply (Rmult_le_reg_l (f * s)); [nra|]. rewrite Rmult_1_r, !Rmult_assoc in *. exact M.
Qed.
(** Moments of lower degree are sums of moments of higher degree. *)
Lemma term_up a b c q : real_term a b c q = real_term (S a) b c q + real_term a (S b) c q + real_term a b (S c) q.
Proof.
  destruct q as [[x y] w]. unfold real_term. cbn [bary0 bary1 bary2 weight_of pow]. rewrite bary0_real. ring.
Qed.
Lemma sum_up a b c l : sum (real_term a b c) l = sum (real_term (S a) b c) l + sum (real_term a (S b) c) l + sum (real_term a b (S c)) l.
Proof. induction l as [|q l IH]; cbn [sum]; [ring|]. rewrite IH, (term_up a b c q). ring. Qed.
Lemma mean_up a b c : mean a b c = mean (S a) b c + mean a (S b) c + mean a b (S c).
Proof.
  unfold mean. replace (S a + b + c + 2)%nat with (S (a + b + c + 2)) by lia. replace (a + S b + c + 2)%nat with (S (a + b + c + 2)) by lia.
  replace (a + b + S c + 2)%nat with (S (a + b + c + 2)) by lia.
  assert (Fs : forall n, INR (fact (S n)) = INR (S n) * INR (fact n)) by (intros n; change (fact (S n)) with (S n * fact n)%nat; apply mult_INR).
  rewrite !Fs, !S_INR, !plus_INR. assert (P := INR_fact_neq_0 (a + b + c + 2)).
  assert (0 <= INR a /\ 0 <= INR b /\ 0 <= INR c) as (A & B & C) by (repeat split; apply pos_INR). change (INR 2) with 2. field. split; [exact P | lra].
Qed.
Lemma moment_weighted l n : (forall a b c, (a + b + c)%nat = n -> Rabs (sum (real_term a b c) l - mean a b c) * 3 ^ n <= / 10 ^ 13) ->
  forall k a b c, (a + b + c + k)%nat = n -> Rabs (sum (real_term a b c) l - mean a b c) * 3 ^ (a + b + c) <= / 10 ^ 13.
Proof.
  intros H. induction k as [|k IH]; intros a b c E; [rewrite Nat.add_0_r in E; rewrite E; exact (H a b c E)|].
  assert (A := IH (S a) b c ltac:(lia)). assert (B := IH a (S b) c ltac:(lia)). assert (C := IH a b (S c) ltac:(lia)).
  rewrite sum_up, mean_up. replace (S a + b + c)%nat with (S (a + b + c)) in A by lia. replace (a + S b + c)%nat with (S (a + b + c)) in B by lia.
  replace (a + b + S c)%nat with (S (a + b + c)) in C by lia. cbn [pow] in A, B, C.
  set (x := sum (real_term (S a) b c) l - mean (S a) b c) in *. set (y := sum (real_term a (S b) c) l - mean a (S b) c) in *.
  set (z := sum (real_term a b (S c)) l - mean a b (S c)) in *.
  match goal with |- Rabs ?e * _ <= _ => replace e with (x + y + z) by (unfold x, y, z; ring) end.
  assert (T := Rabs_triang (x + y) z). assert (T' := Rabs_triang x y). assert (P : 0 < 3 ^ (a + b + c)) by (apply pow_lt; lra).
  nra.
Qed.
Lemma moment_low l n : (forall a b c, (a + b + c)%nat = n -> Rabs (sum (real_term a b c) l - mean a b c) * 3 ^ n <= / 10 ^ 13) ->
  forall k a b c, (a + b + c + k)%nat = n -> Rabs (sum (real_term a b c) l - mean a b c) <= / 10 ^ 13.
Proof.
  intros H k a b c E. assert (G := moment_weighted l n H k a b c E). assert (P := pow_R1_Rle 3 (a + b + c) ltac:(lra)). assert (A := Rabs_pos (sum (real_term a b c) l - mean a b c)). nra.
Qed.
Lemma table_moments meth l : tri_table meth = Some l -> forall a b c, (a + b + c <= degree meth)%nat ->
  Rabs (sum (real_term a b c) l - mean a b c) * 3 ^ (a + b + c) <= / 10 ^ 13.
Proof.
  intros T. assert (Ok := tables_ok meth l T). unfold table_ok in Ok. rewrite !andb_true_iff in Ok. destruct Ok as ((Op & Os) & Om). intros a b c L.
  apply (moment_weighted l (degree meth)) with (k := (degree meth - a - b - c)%nat); [|lia]. clear a b c L. intros a b c L.
  apply (moment_real _ _ _ _ _ L Os). unfold moments_ok in Om.
  assert (In' : forall n x, (x <= n)%nat -> In x (range n)) by (intros n x X; apply in_seq; lia).
  cbv zeta in Om. rewrite forallb_forall in Om. specialize (Om a (In' (degree meth) a ltac:(lia))). rewrite forallb_forall in Om.
  specialize (Om b (In' (degree meth - a)%nat b ltac:(lia))). replace (degree meth - a - b)%nat with c in Om by lia. exact Om.
Qed.

(** Every method integrates the products of powers of the barycentric coordinates up to its degree, with a relative
    error of at most 1e-13 (rounding of the tables); all points are in the triangle, the weights are positive; the normal
    is that of the triangle. *)
Lemma ips_ok t meth l : get_ips_global t meth = Some l -> exists bs : list (R * R * R),
  Forall2 (fun ip b => let '(x, y, z) := b in
    0 <= x /\ 0 <= y /\ 0 <= z /\ x + y + z = 1 /\
    b_point ip = vadd (vadd (vscale x (P1 t)) (vscale y (P2 t))) (vscale z (P3 t)) /\ b_normal ip = tri_normal t /\
    tri_area t / 100 <= b_weight ip) l bs /\
  forall a b c, (a + b + c <= degree meth)%nat ->
    Rabs (sum (fun p => b_weight (fst p) * (let '(x, y, z) := snd p in x ^ a * y ^ b * z ^ c)) (combine l bs) - tri_area t * mean a b c)
      <= / 10 ^ 13 * tri_area t.
Proof.
  unfold get_ips_global. destruct (tri_table meth) as [q|] eqn:T; [|discriminate]. cbn [option_map]. intros E. injection E as <-.
  assert (Ok := tables_ok meth q T). unfold table_ok in Ok. rewrite !andb_true_iff in Ok. destruct Ok as ((Op & Os) & Om). clear T. assert (Ar := area_nonneg t).
  exists (map (fun p => (Q2R (bary0 p), Q2R (bary1 p), Q2R (bary2 p))) q). split.
  - clear Om Os. induction q as [|p q IH]; cbn [map]; constructor.
    + cbn [forallb] in Op. apply andb_true_iff in Op as [Op _]. unfold point_ok in Op. rewrite !andb_true_iff in Op.
      destruct Op as (((A & B) & C) & W). apply q2r_le in A, B, C, W. rewrite q2r_0 in A, B, C.
      replace (Q2R (1 # 100)) with (/ 100) in W by (unfold Q2R; cbn; field).
      destruct p as [[x y] w]. cbn [bary0 bary1 bary2 weight_of] in *. rewrite bary0_real in *.
      split; [exact A|]. split; [exact B|]. split; [exact C|]. split; [ring|]. split; [|split].
      * unfold global_ip, shape, vadd, vscale. cbn [b_point fst snd px py pz]. reflexivity.
      * reflexivity.
      * unfold global_ip. cbn [b_weight]. nra.
    + apply IH. cbn [forallb] in Op. apply andb_true_iff in Op. apply Op.
  - intros a b c L. assert (M : Rabs (sum (real_term a b c) q - mean a b c) <= / 10 ^ 13).
    { apply (moment_low q (degree meth)) with (k := (degree meth - a - b - c)%nat); [|lia]. clear a b c L. intros a b c L.
      apply (moment_real _ _ _ _ _ L Os). unfold moments_ok in Om.
      assert (In' : forall n x, (x <= n)%nat -> In x (range n)) by (intros n x X; apply in_seq; lia).
      cbv zeta in Om. rewrite forallb_forall in Om. specialize (Om a (In' (degree meth) a ltac:(lia))). rewrite forallb_forall in Om.
      specialize (Om b (In' (degree meth - a)%nat b ltac:(lia))). replace (degree meth - a - b)%nat with c in Om by lia. exact Om. }
    assert (Es : sum (fun p => b_weight (fst p) * (let '(x, y, z) := snd p in x ^ a * y ^ b * z ^ c))
      (combine (map (global_ip t) q) (map (fun p => (Q2R (bary0 p), Q2R (bary1 p), Q2R (bary2 p))) q)) = tri_area t * sum (real_term a b c) q).
    { clear. induction q as [|p q IH]; cbn [map combine sum]; [ring|]. rewrite IH. cbn [fst snd].
      unfold real_term. destruct p as [[x y] w]. unfold global_ip. cbn [b_weight weight_of]. ring. }
    rewrite Es, <- Rmult_minus_distr_l, Rabs_mult, (Rabs_right (tri_area t)) by lra. nra.
Qed.
Theorem C43_integration_points : forall t meth l, get_ips_global t meth = Some l -> exists bs : list (R * R * R),
  Forall2 (fun ip b => let '(x, y, z) := b in
    0 <= x /\ 0 <= y /\ 0 <= z /\ x + y + z = 1 /\
    b_point ip = vadd (vadd (vscale x (P1 t)) (vscale y (P2 t))) (vscale z (P3 t)) /\ b_normal ip = tri_normal t /\
    tri_area t / 100 <= b_weight ip) l bs /\
  forall a b c, (a + b + c <= degree meth)%nat ->
    Rabs (sum (fun p => b_weight (fst p) * (let '(x, y, z) := snd p in x ^ a * y ^ b * z ^ c)) (combine l bs) - tri_area t * mean a b c)
      <= / 10 ^ 13 * tri_area t.
Proof. exact ips_ok. Qed.
Print Assumptions C43_integration_points.

(** In particular the weights sum to the area, every point is in the triangle, and the normals are unit normals. *)
Lemma weights_and_points t meth l : get_ips_global t meth = Some l ->
  Rabs (sum b_weight l - tri_area t) <= / 10 ^ 13 * tri_area t /\
  (forall ip, In ip l -> in_triangle t (b_point ip)) /\
  (zerotol < norm (area2 t) -> forall ip, In ip l -> norm (b_normal ip) = 1).
Proof.
  intros G. destruct (ips_ok t meth l G) as [bs [F M]]. split; [|split].
  - specialize (M 0%nat 0%nat 0%nat ltac:(lia)). replace (mean 0 0 0) with 1 in M by (unfold mean; cbn; field). rewrite Rmult_1_r in M.
    replace (sum b_weight l) with (sum (fun p => b_weight (fst p) * (let '(x, y, z) := snd p in x ^ 0 * y ^ 0 * z ^ 0)) (combine l bs)); [exact M|].
    clear M G. induction F as [|ip [[x y] z] l bs H F IH]; cbn [combine sum]; [reflexivity|]. rewrite IH. cbn [fst snd pow]. ring.
  - intros ip I. clear M G. induction F as [|ip' [[x y] z] l bs H F IH]; [destruct I|]. destruct I as [<-|I]; [|exact (IH I)].
    destruct H as (X & Y & Z & S & P & _). exists x, y, z. auto.
  - intros Z ip I. assert (N : b_normal ip = tri_normal t).
    { clear M G. induction F as [|ip' [[x y] z] l bs H F IH]; [destruct I|]. destruct I as [<-|I]; [|exact (IH I)]. apply H. }
    rewrite N, tri_normal_unit. destruct (Rlt_dec _ _); [reflexivity | contradiction].
Qed.
Theorem C43_weights_and_points : forall t meth l, get_ips_global t meth = Some l ->
  Rabs (sum b_weight l - tri_area t) <= / 10 ^ 13 * tri_area t /\
  (forall ip, In ip l -> in_triangle t (b_point ip)) /\
  (zerotol < norm (area2 t) -> forall ip, In ip l -> norm (b_normal ip) = 1).
Proof. exact weights_and_points. Qed.
Print Assumptions C43_weights_and_points.

(** The methods 0 to 4 exist, all others raise an exception. *)
Lemma methods t meth : (get_ips_global t meth <> None) <-> (meth <= 4)%nat.
Proof.
  destruct meth as [|[|[|[|[|meth]]]]]; cbn; split; intros H; try lia; try discriminate; congruence.
Qed.
Theorem C43_methods : forall t meth, (get_ips_global t meth <> None) <-> (meth <= 4)%nat.
Proof. exact methods. Qed.
Print Assumptions C43_methods.
Example C43_example : exists l, get_ips_global (Tri (Pt 0 0 0) (Pt 1 0 0) (Pt 0 1 0)) 2 = Some l /\ length l = 6%nat /\
  zerotol < norm (area2 (Tri (Pt 0 0 0) (Pt 1 0 0) (Pt 0 1 0))).
Proof.
  eexists. split; [reflexivity|]. split; [reflexivity|]. unfold area2, cross, vsub. cbn [P1 P2 P3 px py pz].
  match goal with |- context [norm (Pt ?x ?y ?z)] => replace (Pt x y z) with (Pt 0 0 1) by (f_equal; ring) end.
  rewrite norm_unit_z. unfold zerotol. apply (Rmult_lt_reg_r (10 ^ 14)); [apply pow_lt; lra|].
  rewrite Rinv_l by (apply pow_nonzero; lra). rewrite Rmult_1_l. apply Rlt_pow_R1; [lra | lia].
Qed.
