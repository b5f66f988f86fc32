(** Property C79: boundary integration points mapped in double precision. *)
From Coq Require Import Reals ZArith Lia Lra.
From Flocq Require Import Core Relative.
From Verif Require Import Geo GgqModel MappingModel GridRoundModel GridRoundProofs GridRoundProps ClipRoundModel ClipRoundProofs MapRoundModel MapRoundProofs MapRoundProps AreaRoundModel AreaRoundProofs.
Local Open Scope R_scope.

(** ** Specification. *)
(** The exact image of an area vector under the map from one box to the other: determinant times inverse transposed derivative. *)
Definition image (from to : box) (n : pt) (a : axis) : R :=
  volume to / volume from * (at_ a n / ((at_ a (upper to) - at_ a (lower to)) / (at_ a (upper from) - at_ a (lower from)))).
Definition len (v : axis -> R) : R := sqrt (v AX * v AX + v AY * v AY + v AZ * v AZ).
(** Components of normals are zero or not tiny. *)
Definition regular (n : pt) : Prop := forall a, at_ a n = 0 \/ bpow radix2 (-100) <= Rabs (at_ a n) <= bpow radix2 50.
Definition tol : R := / 10 ^ 14.

Lemma image_eq from to n a : moderate from -> moderate to -> avec n from to a = image from to n a.
Proof.
  intros F T. pose proof (wide from AX F). pose proof (wide from AY F). pose proof (wide from AZ F). pose proof (wide to AX T). pose proof (wide to AY T). pose proof (wide to AZ T). unfold image, avec, sc, volume, MapRoundProofs.width. destruct a; cbn [other fst snd]; field; repeat split; lra.
Qed.
Lemma ssum_ext v w : (forall a, v a = w a) -> ssum v = ssum w. Proof. intros E. unfold ssum. rewrite !E. reflexivity. Qed.
Lemma facts contract from to n : moderate from -> moderate to -> regular n ->
  (forall a, srel (9 * u) (at_ a (area_vector_d n from to)) (image from to n a) /\ above (-500) (image from to n a)) /\
  rel (25 * u) (norm_d contract (area_vector_d n from to)) (len (image from to n)) /\ len (image from to n) <= bpow radix2 451.
Proof.
  intros F T N. assert (A : forall a, srel (9 * u) (at_ a (area_vector_d n from to)) (image from to n a) /\ above (-500) (image from to n a) /\ Rabs (image from to n a) <= bpow radix2 450) by (intros a; rewrite <- (image_eq from to n a F T); apply avec_rel; assumption).
  split; [intros a; split; apply A|]. split; [apply srel_rel; [apply sqrt_pos|]; apply (norm_rel contract _ (image from to n)); intros a; apply A|apply (norm_upper (image from to n)); intros a; apply A].
Qed.
Lemma tol_eq : tol = zerotol. Proof. reflexivity. Qed.
Lemma tol_d : zerotol_d <= tol * (1 + / 1000000) /\ tol * (1 - / 1000000) <= zerotol_d /\ 0 < tol.
Proof. pose proof zerotol_close as C. pose proof zerotol_pos as P. rewrite <- tol_eq in *. pose proof u_small. apply Rabs_le_inv in C. assert (u * tol <= / 1000000 * tol) by (apply Rmult_le_compat_r; lra). lra. Qed.
Lemma long contract from to n : moderate from -> moderate to -> regular n -> 1001 / 1000 * tol <= len (image from to n) -> zerotol_d < norm_d contract (area_vector_d n from to).
Proof. intros F T N L. destruct (facts contract from to n F T N) as (_ & R0 & _). pose proof u_small as U. destruct tol_d as (A & _ & P). unfold rel in R0. apply Rabs_le_inv in R0. assert (25 * u * len (image from to n) <= 25 / 1000000 * len (image from to n)) by (apply Rmult_le_compat_r; lra). lra. Qed.
Lemma short contract from to n : moderate from -> moderate to -> regular n -> len (image from to n) <= 999 / 1000 * tol -> ~ zerotol_d < norm_d contract (area_vector_d n from to).
Proof. intros F T N L. destruct (facts contract from to n F T N) as (_ & R0 & _). pose proof u_small as U. destruct tol_d as (_ & A & P). unfold rel in R0. apply Rabs_le_inv in R0. assert (0 <= len (image from to n)) by apply sqrt_pos. assert (25 * u * len (image from to n) <= 25 / 1000000 * len (image from to n)) by (apply Rmult_le_compat_r; lra). lra. Qed.

(** Weights are multiplied by the length of the image of the normal, with a relative error of at most 2^-48. *)
Lemma weight contract from to n w : moderate from -> moderate to -> regular n -> usual w -> fits (fl (w * snd (area_data_d contract n from to))) (w * len (image from to n)) 281474976710656.
Proof.
  intros F T N [W1 W2]. destruct (facts contract from to n F T N) as (A & R0 & _). pose proof u_small as U. assert (UU : u * u <= 1 / 1000000 * u) by (apply Rmult_le_compat_r; lra). pose proof (bpow_gt_0 radix2 (-300)). assert (L : 0 <= len (image from to n)) by apply sqrt_pos. apply fits_32. apply srel_rel; [apply Rmult_le_pos; lra|].
  apply srel_rel in R0; [|exact L]. pose proof (srel_mult _ _ _ _ _ _ (srel_refl w) R0 ltac:(lra) ltac:(lra)) as M. unfold area_data_d. cbn [snd]. eapply srel_weak; [|apply srel_round; [exact M|lra|]]; [lra|].
  eapply (above_weak (-500 + -300)); [lia|]. rewrite Rmult_comm. apply above_mult; [|rewrite Rabs_pos_eq; lra]. pose proof (Rle_0_sqr (image from to n AX)) as PX. pose proof (Rle_0_sqr (image from to n AY)) as PY. pose proof (Rle_0_sqr (image from to n AZ)) as PZ. unfold Rsqr in PX, PY, PZ. assert (P12 : 0 <= image from to n AX * image from to n AX + image from to n AY * image from to n AY) by lra.
  pose proof (above_plus _ _ _ P12 PZ (above_plus _ _ _ PX PY (above_square _ _ (proj2 (A AX))) (above_square _ _ (proj2 (A AY)))) (above_square _ _ (proj2 (A AZ)))) as [E|E]; unfold len; [left; rewrite E; apply sqrt_0|right]. rewrite Rabs_pos_eq in E by lra. rewrite Rabs_pos_eq by apply sqrt_pos. rewrite <- (sqrt_square (bpow radix2 (-500))) by apply bpow_ge_0. apply sqrt_le_1_alt. rewrite <- bpow_plus. exact E.
Qed.
Theorem C79_weight : forall contract b q, moderate (eb_global b) -> moderate (eb_param b) -> regular (bp_normal q) -> usual (bp_weight q) ->
  fits (bp_weight (bp_to_parametric_d contract q b)) (bp_weight q * len (image (eb_global b) (eb_param b) (bp_normal q))) 281474976710656 /\
  fits (bp_weight (bp_to_global_d contract q b)) (bp_weight q * len (image (eb_param b) (eb_global b) (bp_normal q))) 281474976710656.
Proof.
  intros contract b q G P N W. pose proof (weight contract _ _ _ _ G P N W) as A. pose proof (weight contract _ _ _ _ P G N W) as B. unfold bp_to_parametric_d, bp_to_global_d. destruct (area_data_d contract (bp_normal q) (eb_global b) (eb_param b)). destruct (area_data_d contract (bp_normal q) (eb_param b) (eb_global b)). split; assumption.
Qed.
Print Assumptions C79_weight.

(** The new normal is the exact one, with a relative error of at most 2^-47 in each component. Its length is one up to 2^-46. *)
Definition unit_image (from to : box) (n r : pt) : Prop :=
  (forall a, Rabs (at_ a r - image from to n a / len (image from to n)) <= Rabs (image from to n a / len (image from to n)) / 140737488355328) /\
  (forall a, (0 < at_ a n -> 0 < at_ a r) /\ (at_ a n = 0 -> at_ a r = 0) /\ (at_ a n < 0 -> at_ a r < 0)) /\
  Rabs (at_ AX r * at_ AX r + at_ AY r * at_ AY r + at_ AZ r * at_ AZ r - 1) <= / 70368744177664.
Lemma unit_normal contract from to n : moderate from -> moderate to -> regular n -> 1001 / 1000 * tol <= len (image from to n) -> unit_image from to n (fst (area_data_d contract n from to)).
Proof.
  intros F T N L. pose proof (long contract from to n F T N L) as Z. destruct (facts contract from to n F T N) as (A & R0 & B). pose proof u_small as U. assert (UU : u * u <= 1 / 1000000 * u) by (apply Rmult_le_compat_r; lra). destruct tol_d as (_ & _ & P). set (M := len (image from to n)) in *. assert (PM : 0 < M) by lra.
  unfold area_data_d. set (t := area_vector_d n from to) in *. set (m := norm_d contract t) in *. destruct (Rlt_dec zerotol_d m) as [_|X]; [|lra]. cbn [fst].
  set (r := Pt (fl (px t * fl (1 / m))) (fl (py t * fl (1 / m))) (fl (pz t * fl (1 / m)))). assert (S : forall a, srel (40 * u) (at_ a r) (image from to n a / M)). { intros a. replace (at_ a r) with (fl (at_ a t * fl (1 / m))) by (destruct a; reflexivity). apply unit_rel; [exact PM|exact R0|exact B|apply A|apply A]. }
  split; [|split].
  - intros a. eapply Rle_trans; [apply (S a)|]. pose proof (Rabs_pos (image from to n a / M)) as Q. fold M. unfold Rdiv at 2. set (y := Rabs (image from to n a / M)) in *. unfold u. lra.
  - intros a. specialize (S a). assert (J : exists c, 0 < c /\ image from to n a / M = at_ a n * c). { exists (volume to / volume from / ((at_ a (upper to) - at_ a (lower to)) / (at_ a (upper from) - at_ a (lower from))) / M). pose proof (wide from AX F). pose proof (wide from AY F). pose proof (wide from AZ F). pose proof (wide to AX T). pose proof (wide to AY T). pose proof (wide to AZ T). pose proof (wide from a F). pose proof (wide to a T). assert (0 < volume to /\ 0 < volume from) as [V1 V2] by (unfold volume; split; apply Rmult_lt_0_compat; try assumption; apply Rmult_lt_0_compat; assumption). split; [repeat apply Rdiv_lt_0_compat; assumption|]. unfold image. field. repeat split; lra. }
    destruct J as (c & C & J). rewrite J in S. unfold srel in S. rewrite Rabs_mult, (Rabs_pos_eq c) in S by lra. split; [|split]; intros H.
    + assert (0 < at_ a n * c) by (apply Rmult_lt_0_compat; assumption). rewrite (Rabs_pos_eq (at_ a n)) in S by lra. apply Rabs_le_inv in S. assert (40 * u * (at_ a n * c) <= 1 / 1000 * (at_ a n * c)) by (apply Rmult_le_compat_r; lra). lra.
    + rewrite H in S. rewrite Rabs_R0, !Rmult_0_l, Rmult_0_r, Rminus_0_r in S. destruct (Req_dec (at_ a r) 0) as [E|E]; [exact E|]. apply Rabs_pos_lt in E. lra.
    + assert (0 < - at_ a n * c) by (apply Rmult_lt_0_compat; lra). rewrite (Rabs_left (at_ a n)) in S by lra. apply Rabs_le_inv in S. assert (40 * u * (- at_ a n * c) <= 1 / 1000 * (- at_ a n * c)) by (apply Rmult_le_compat_r; lra). lra.
  - assert (Q : forall a, srel (81 * u) (at_ a r * at_ a r) (image from to n a / M * (image from to n a / M))) by (intros a; eapply srel_weak; [|apply srel_mult; [apply S|apply S|lra|lra]]; lra).
    assert (PQ : forall a, 0 <= image from to n a / M * (image from to n a / M)) by (intros a; apply Rle_0_sqr). pose proof (PQ AX) as PX. pose proof (PQ AY) as PY. pose proof (PQ AZ) as PZ. assert (P12 : 0 <= image from to n AX / M * (image from to n AX / M) + image from to n AY / M * (image from to n AY / M)) by lra.
    pose proof (srel_plus _ _ _ _ _ _ P12 PZ (Rle_refl _) (srel_plus _ _ _ _ _ _ PX PY (Rle_refl _) (Q AX) (Q AY)) (Q AZ)) as E.
    assert (O : image from to n AX / M * (image from to n AX / M) + image from to n AY / M * (image from to n AY / M) + image from to n AZ / M * (image from to n AZ / M) = 1).
    { assert (MM : M * M = image from to n AX * image from to n AX + image from to n AY * image from to n AY + image from to n AZ * image from to n AZ) by (unfold M, len; apply sqrt_sqrt; pose proof (Rle_0_sqr (image from to n AX)); pose proof (Rle_0_sqr (image from to n AY)); pose proof (Rle_0_sqr (image from to n AZ)); unfold Rsqr in *; lra). apply Rmult_eq_reg_r with (M * M); [|apply Rmult_integral_contrapositive_currified; lra]. rewrite Rmult_1_l. rewrite MM at 2. field. lra. }
    unfold srel in E. rewrite O, Rabs_R1 in E. unfold u in E. lra.
Qed.
Theorem C79_normal : forall contract b q, moderate (eb_global b) -> moderate (eb_param b) -> regular (bp_normal q) ->
  (1001 / 1000 * tol <= len (image (eb_global b) (eb_param b) (bp_normal q)) -> unit_image (eb_global b) (eb_param b) (bp_normal q) (bp_normal (bp_to_parametric_d contract q b))) /\
  (1001 / 1000 * tol <= len (image (eb_param b) (eb_global b) (bp_normal q)) -> unit_image (eb_param b) (eb_global b) (bp_normal q) (bp_normal (bp_to_global_d contract q b))).
Proof.
  intros contract b q G P N. pose proof (unit_normal contract _ _ _ G P N) as A. pose proof (unit_normal contract _ _ _ P G N) as B. unfold bp_to_parametric_d, bp_to_global_d. destruct (area_data_d contract (bp_normal q) (eb_global b) (eb_param b)). destruct (area_data_d contract (bp_normal q) (eb_param b) (eb_global b)). split; assumption.
Qed.
Print Assumptions C79_normal.

(** If the image of the normal is shorter than the tolerance, the normal is lost. *)
Lemma lost contract from to n : moderate from -> moderate to -> regular n -> len (image from to n) <= 999 / 1000 * tol -> fst (area_data_d contract n from to) = Pt 0 0 0.
Proof. intros F T N L. pose proof (short contract from to n F T N L) as S. unfold area_data_d. destruct (Rlt_dec zerotol_d (norm_d contract (area_vector_d n from to))); [contradiction|reflexivity]. Qed.
Theorem C79_short : forall contract b q, moderate (eb_global b) -> moderate (eb_param b) -> regular (bp_normal q) ->
  (len (image (eb_global b) (eb_param b) (bp_normal q)) <= 999 / 1000 * tol -> bp_normal (bp_to_parametric_d contract q b) = Pt 0 0 0) /\
  (len (image (eb_param b) (eb_global b) (bp_normal q)) <= 999 / 1000 * tol -> bp_normal (bp_to_global_d contract q b) = Pt 0 0 0).
Proof.
  intros contract b q G P N. pose proof (lost contract _ _ _ G P N) as A. pose proof (lost contract _ _ _ P G N) as B. unfold bp_to_parametric_d, bp_to_global_d. destruct (area_data_d contract (bp_normal q) (eb_global b) (eb_param b)). destruct (area_data_d contract (bp_normal q) (eb_param b) (eb_global b)). split; assumption.
Qed.
Print Assumptions C79_short.

(** Positions are mapped like points. *)
Theorem C79_positions : forall contract b q, moderate (eb_global b) -> moderate (eb_param b) ->
  (inside (eb_global b) (bp_pos q) -> forall a, Rabs (at_ a (bp_pos (bp_to_parametric_d contract q b)) - exact (eb_global b) (eb_param b) a (at_ a (bp_pos q))) <= ulps (eb_param b) a) /\
  (inside (eb_param b) (bp_pos q) -> forall a, Rabs (at_ a (bp_pos (bp_to_global_d contract q b)) - exact (eb_param b) (eb_global b) a (at_ a (bp_pos q))) <= ulps (eb_global b) a).
Proof.
  intros contract b q G P. destruct (C78_close contract b G P) as [A B]. unfold bp_to_parametric_d, bp_to_global_d. destruct (area_data_d contract (bp_normal q) (eb_global b) (eb_param b)). destruct (area_data_d contract (bp_normal q) (eb_param b) (eb_global b)). split; intros I a; [apply A|apply B]; exact I.
Qed.
Print Assumptions C79_positions.

(** Normals do not always stay unit vectors: cells with edges of 2^24 and parametric cells with unit edges. *)
Definition big_cell : ebounds := EB (Box (Pt 0 0 0) (Pt 16777216 16777216 16777216)) (Box (Pt 0 0 0) (Pt 1 1 1)).
Definition up : bpoint := BP (Pt 1 1 1) 1 (Pt 0 0 1).
Lemma big_ok : moderate (eb_global big_cell) /\ moderate (eb_param big_cell).
Proof.
  assert (A : bpow radix2 (-100) <= 1) by (apply (bpow_le radix2 (-100) 0); lia). assert (B : 16777216 <= bpow radix2 100) by (apply Rle_trans with (bpow radix2 24); [cbn; lra|apply bpow_le; lia]). split; intros []; cbn [big_cell eb_global eb_param upper lower at_ px py pz]; lra.
Qed.
Lemma up_ok : regular (Pt 0 0 1).
Proof. intros []; [left; reflexivity|left; reflexivity|right]. cbn [at_ pz]. rewrite Rabs_R1. split; [apply (bpow_le radix2 (-100) 0); lia|apply (bpow_le radix2 0 50); lia]. Qed.
Lemma len_up x : 0 <= x -> len (fun a => match a with AZ => x | _ => 0 end) = x. Proof. intros H. unfold len. replace (0 * 0 + 0 * 0 + x * x) with (x * x) by ring. apply sqrt_square, H. Qed.
Lemma len_ext v w : (forall a, v a = w a) -> len v = len w. Proof. intros E. unfold len. rewrite !E. reflexivity. Qed.
Theorem C79_unit_refuted : moderate (eb_global big_cell) /\ moderate (eb_param big_cell) /\ inside (eb_global big_cell) (bp_pos up) /\ regular (bp_normal up) /\ usual (bp_weight up) /\
  forall contract, bp_normal (bp_to_parametric_d contract up big_cell) = Pt 0 0 0.
Proof.
  destruct big_ok as [A B]. split; [exact A|split; [exact B|split; [intros []; cbn; lra|split; [exact up_ok|split]]]].
  - split; cbn [up bp_weight]; [apply (bpow_le radix2 (-300) 0); lia|apply (bpow_le radix2 0 300); lia].
  - intros contract. apply (C79_short contract big_cell up A B up_ok). rewrite (len_ext _ (fun a => match a with AZ => / 281474976710656 | _ => 0 end)) by (intros []; unfold image, volume; cbn [up bp_normal big_cell eb_global eb_param upper lower at_ px py pz]; field). rewrite len_up by lra. unfold tol. lra.
Qed.
Print Assumptions C79_unit_refuted.
(** The hypotheses of the theorems above are met by the element of C78 and the same normal. *)
Example C79_example : moderate (eb_global bounds_25_7) /\ moderate (eb_param bounds_25_7) /\ regular (bp_normal up) /\ usual (bp_weight up) /\ inside (eb_global bounds_25_7) (bp_pos up) /\
  1001 / 1000 * tol <= len (image (eb_global bounds_25_7) (eb_param bounds_25_7) (bp_normal up)).
Proof.
  destruct bounds_ok as [A B]. destruct C79_unit_refuted as (_ & _ & _ & R0 & W & _). split; [exact A|split; [exact B|split; [exact R0|split; [exact W|split; [intros []; cbn; lra|]]]]].
  rewrite (len_ext _ (fun a => match a with AZ => 49 / 625 | _ => 0 end)) by (intros []; unfold image, volume; cbn [up bp_normal bounds_25_7 eb_global eb_param upper lower at_ px py pz]; field). rewrite len_up by lra. unfold tol. lra.
Qed.
