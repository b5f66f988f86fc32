(** The enclosed integral does not depend on the apex of the cones; for the mesh of a box it is the iterated integral. *)
From Coq Require Import Reals List Lia Lra.
From Verif Require Import Geo TrimmedQuadModel MeshModel MeshProofs MeshGeoModel MeshGeoProofs MeshBoxProofs DivSpec DivProofs DivMoment.
Import ListNotations.
Local Open Scope R_scope.

(** *** Specification: the iterated integral over a box *)
Definition over_box (b : box) (f : pt -> R) (v : R) : Prop :=
  exists g h, (forall x y, newton (fun z => f (Pt x y z)) (pz (lower b)) (pz (upper b)) (h x y)) /\
    (forall x, newton (h x) (py (lower b)) (py (upper b)) (g x)) /\ newton g (px (lower b)) (px (upper b)) v.

(** *** Linearity *)
Lemma over_cone_plus o t f g v w : over_cone o t f v -> over_cone o t g w -> over_cone o t (fun p => f p + g p) (v + w).
Proof.
  intros (F & HF & IF) (G & HG & IG). exists (fun s => F s + G s). split.
  - intros s. apply (over_triangle_plus (fun u w => f (toward o s (position t u w))) (fun u w => g (toward o s (position t u w)))); auto.
  - eapply newton_ext; [|apply (newton_plus _ _ _ _ _ _ IF IG)]. intros s. cbv beta. ring.
Qed.
Lemma over_cone_scal c o t f v : over_cone o t f v -> over_cone o t (fun p => c * f p) (c * v).
Proof.
  intros (F & HF & IF). exists (fun s => c * F s). split.
  - intros s. apply (over_triangle_scal c (fun u w => f (toward o s (position t u w)))); auto.
  - eapply newton_ext; [|apply (newton_scal c _ _ _ _ IF)]. intros s. cbv beta. ring.
Qed.
Lemma over_cone_ext o t f g v : (forall p, f p = g p) -> over_cone o t f v -> over_cone o t g v.
Proof.
  intros E (F & HF & IF). exists F. split; [|exact IF]. intros s. specialize (HF s). revert HF. apply over_triangle_ext. intros u w. apply E.
Qed.
Lemma enclosed_plus o l f g v w : enclosed o l f v -> enclosed o l g w -> enclosed o l (fun p => f p + g p) (v + w).
Proof.
  intros (vs & Hv & ->) (ws & Hw & ->). revert ws Hw. induction Hv as [|t x l vs Hx Hv IH]; intros ws Hw; inversion Hw; subst.
  - exists []. split; [constructor | cbn; ring].
  - match goal with H : Forall2 _ l ?r |- _ => destruct (IH r H) as (us & Hu & Eu) end.
    eexists (_ :: us). split; [constructor; [apply over_cone_plus; eassumption | exact Hu]|]. cbn [sum] in *. lra.
Qed.
Lemma enclosed_scal c o l f v : enclosed o l f v -> enclosed o l (fun p => c * f p) (c * v).
Proof.
  intros (vs & Hv & ->). induction Hv as [|t x l vs Hx Hv IH].
  - exists []. split; [constructor | cbn; ring].
  - destruct IH as (us & Hu & Eu). eexists (_ :: us). split; [constructor; [apply over_cone_scal; eassumption | exact Hu]|]. cbn [sum] in *. lra.
Qed.
Lemma enclosed_ext o l f g v : (forall p, f p = g p) -> enclosed o l f v -> enclosed o l g v.
Proof.
  intros E (vs & Hv & ->). exists vs. split; [|reflexivity]. induction Hv; constructor; [eapply over_cone_ext; [exact E | eassumption] | assumption].
Qed.
Lemma enclosed_zero o l : enclosed o l (fun _ => 0) 0.
Proof.
  exists (map (fun _ => 0) l). split.
  - apply forall2_map. intros t. exists (fun _ => 0). split; [intros s; apply over_triangle_zero|]. eapply newton_ext; [|apply newton_zero]. intros s. cbv beta. ring.
  - rewrite sum_id_map. induction l as [|t l IH]; cbn [sum]; lra.
Qed.
Lemma over_box_plus b f g v w : over_box b f v -> over_box b g w -> over_box b (fun p => f p + g p) (v + w).
Proof.
  intros (g1 & h1 & A1 & B1 & C1) (g2 & h2 & A2 & B2 & C2). exists (fun x => g1 x + g2 x), (fun x y => h1 x y + h2 x y).
  split; [|split]; intros; apply newton_plus; auto.
Qed.
Lemma over_box_scal c b f v : over_box b f v -> over_box b (fun p => c * f p) (c * v).
Proof.
  intros (g1 & h1 & A1 & B1 & C1). exists (fun x => c * g1 x), (fun x y => c * h1 x y). split; [|split]; intros; apply newton_scal; auto.
Qed.
Lemma over_box_ext b f g v : (forall p, f p = g p) -> over_box b f v -> over_box b g v.
Proof.
  intros E (g1 & h1 & A1 & B1 & C1). exists g1, h1. split; [|split; assumption]. intros x y. specialize (A1 x y). revert A1. apply newton_ext. intros z. apply E.
Qed.
Lemma over_box_zero b : over_box b (fun _ => 0) 0.
Proof. exists (fun _ => 0), (fun _ _ => 0). split; [|split]; intros; apply newton_zero. Qed.

(** *** Every polynomial is a divergence *)
Fixpoint vpow (a : axis) (n : nat) : pexp := match n with O => Cst 1 | S n => Mul (Var a) (vpow a n) end.
Lemma vpow_ok a n p : pev (vpow a n) p = at_ a p ^ n.
Proof. induction n as [|n IH]; cbn [vpow pev pow]; [reflexivity | rewrite IH; reflexivity]. Qed.
Lemma poly_mono m : polynomial (mono m).
Proof.
  destruct m as [[i j] k]. exists (Mul (Mul (vpow AX i) (vpow AY j)) (vpow AZ k)). intros p. cbn [pev]. rewrite !vpow_ok. reflexivity.
Qed.
Definition along_x (m : nat * nat * nat) (p : pt) : pt := let '(i, j, k) := m in Pt (/ INR (S i) * mono (S i, j, k) p) 0 0.
Lemma along_x_divergence m : is_divergence (along_x m) (mono m).
Proof.
  destruct m as [[i j] k]. intros p. exists (mono (i, j, k) p), 0, 0. cbn [along_x px py pz]. split; [|split; [|split]].
  - unfold mono. cbn [px py pz]. replace (px p ^ i * py p ^ j * pz p ^ k) with ((/ INR (S i) * py p ^ j * pz p ^ k) * (INR (S i) * px p ^ i)).
    2:{ field. apply not_0_INR. discriminate. }
    apply (lim_ext (fun t => (/ INR (S i) * py p ^ j * pz p ^ k) * t ^ S i)); [intros t; cbn [pow]; ring|]. apply (derivable_pt_lim_scal (fun t => t ^ S i)). apply pow_lim.
  - apply derivable_pt_lim_const.
  - apply derivable_pt_lim_const.
  - ring.
Qed.
Lemma along_x_poly m : polynomial (fun p => px (along_x m p)) /\ polynomial (fun p => py (along_x m p)) /\ polynomial (fun p => pz (along_x m p)).
Proof.
  destruct m as [[i j] k]. cbn [along_x px py pz]. split; [|split; apply poly_const]. apply poly_mult; [apply poly_const | apply poly_mono].
Qed.
Lemma mono_enclosed l m : closed l -> exists v, (forall o, enclosed o l (mono m) v) /\ outflow l (along_x m) v.
Proof.
  intros C. destruct (along_x_poly m) as (X & Y & Z). destruct (divergence_theorem (Pt 0 0 0) l _ _ X Y Z (along_x_divergence m) C) as (v & _ & H2).
  exists v. split; [|exact H2]. intros o. destruct (divergence_theorem o l _ _ X Y Z (along_x_divergence m) C) as (w & H3 & H4).
  rewrite (outflow_unique _ _ _ _ H2 H4). exact H3.
Qed.
Lemma apex_independent l f : closed l -> polynomial f -> exists v, forall o, enclosed o l f v.
Proof.
  intros C (e & E). assert (G : forall ms, exists v, forall o, enclosed o l (mev ms) v).
  { unfold mev. induction ms as [|m ms (v & IH)]; [exists 0; intros o; apply enclosed_zero|].
    destruct (mono_enclosed l (snd m) C) as (w & Hw & _). exists (fst m * w + v). intros o. cbn [sum].
    apply (enclosed_plus o l (fun p => fst m * mono (snd m) p)); [apply enclosed_scal, Hw | apply IH]. }
  destruct (G (expand e)) as (v & Hv). exists v. intros o. specialize (Hv o). revert Hv. apply enclosed_ext. intros p. rewrite expand_ok, E. reflexivity.
Qed.

(** *** The mesh of a box *)
Lemma triangle_swap g v : polynomial (fun p => g (py p) (pz p)) -> over_triangle g v -> over_triangle (fun u w => g w u) v.
Proof.
  intros (e & E) H.
  assert (A := triangle_monos (expand e) 0). assert (E1 : v = sum (fun m => fst m * (0 ^ fst (fst (snd m)) * at_top (snd m))) (expand e)).
  { refine (over_triangle_unique _ _ _ _ _ H A). intros u w. cbv beta. rewrite expand_ok. apply (E (Pt 0 u w)). }
  subst v. clear H A. apply (over_triangle_ext (fun u w => mev (expand e) (Pt 0 w u))); [intros u w; cbv beta; rewrite expand_ok; symmetry; apply (E (Pt 0 w u))|]. clear E.
  unfold mev. induction (expand e) as [|[c [[i j] k]] l IH]; cbn [sum]; [apply over_triangle_zero|]. apply over_triangle_plus; [|exact IH].
  apply over_triangle_scal. cbn [fst snd mono at_top px py pz].
  assert (H := over_triangle_scal (0 ^ i) _ _ (over_triangle_mono 0 k j)).
  replace (dirichlet 0 j k) with (dirichlet 0 k j) by (unfold dirichlet; replace (0 + k + j + 2)%nat with (0 + j + k + 2)%nat by lia; field; apply INR_fact_neq_0).
  revert H. apply over_triangle_ext. intros u w. cbn [pow]. ring.
Qed.
Lemma triangle_exists g : polynomial (fun p => g (py p) (pz p)) -> exists v, over_triangle g v.
Proof.
  intros (e & E). eexists. eapply over_triangle_ext; [|apply (triangle_monos (expand e) 0)]. intros u w. cbv beta. rewrite expand_ok. symmetry. apply (E (Pt 0 u w)).
Qed.
Section Rectangle.
Variables h k H K : R -> R.
Hypothesis Hh : forall x, derivable_pt_lim H x (h x).
Hypothesis Hk : forall x, derivable_pt_lim K x (k x).
Lemma inner_shift f G u v : (forall x, derivable_pt_lim G x (f x)) -> v = G 1 - G u -> newton (fun w => f (u + w)) 0 (1 - u) v.
Proof.
  intros D ->. exists (fun w => G (u + w)). split.
  - intros w. replace (f (u + w)) with (f (u + w) * (0 + 1)) by ring. apply (derivable_pt_lim_comp (fun w => u + w) G); [|apply D].
    apply (derivable_pt_lim_plus (fun _ => u) (fun w => w)); [apply derivable_pt_lim_const | apply derivable_pt_lim_id].
  - replace (u + (1 - u)) with 1 by ring. replace (u + 0) with u by ring. reflexivity.
Qed.
Lemma rectangle A B : over_triangle (fun u w => h (u + w) * k u) A -> over_triangle (fun u w => h u * k (u + w)) B -> A + B = (H 1 - H 0) * (K 1 - K 0).
Proof.
  intros (g & Hg & Ig) (g' & Hg' & Ig').
  assert (E : forall u, g u = k u * (H 1 - H u)).
  { intros u. refine (newton_unique _ _ _ _ _ _ _ (Hg u) (newton_scal (k u) _ _ _ _ (inner_shift h H u _ Hh eq_refl))). intros w. cbv beta. ring. }
  assert (E' : forall u, g' u = h u * (K 1 - K u)).
  { intros u. refine (newton_unique _ _ _ _ _ _ _ (Hg' u) (newton_scal (h u) _ _ _ _ (inner_shift k K u _ Hk eq_refl))). intros w. cbv beta. ring. }
  assert (S : newton (fun u => k u * H 1 + h u * K 1 - (h u * K u + H u * k u)) 0 1 ((H 1 - H 0) * (K 1 - K 0))).
  { exists (fun u => K u * H 1 + H u * K 1 - H u * K u). split; [|ring]. intros u.
    apply (derivable_pt_lim_minus (fun u => K u * H 1 + H u * K 1) (fun u => H u * K u)); [|apply derivable_pt_lim_mult; auto].
    apply (derivable_pt_lim_plus (fun u => K u * H 1) (fun u => H u * K 1)).
    - apply (lim_ext (fun u => H 1 * K u)); [intros y; ring|]. rewrite Rmult_comm. apply derivable_pt_lim_scal; auto.
    - apply (lim_ext (fun u => K 1 * H u)); [intros y; ring|]. rewrite Rmult_comm. apply derivable_pt_lim_scal; auto. }
  refine (newton_unique _ _ _ _ _ _ _ (newton_plus _ _ _ _ _ _ Ig Ig') S). intros u. cbv beta. rewrite E, E'. ring.
Qed.
End Rectangle.
(** The faces across x. *)
Section Faces.
Variables (lo up : pt).
Hypothesis B : box_ok (Box lo up).
Variables j k : nat.
Let ly := py up - py lo.
Let lz := pz up - pz lo.
Let h y := (py lo + ly * y) ^ j.
Let kk z := (pz lo + lz * z) ^ k.
Definition power_mean (a b : R) (n : nat) : R := / INR (S n) * (b ^ S n - a ^ S n).
Lemma affine_lim a c n x : c <> 0 -> derivable_pt_lim (fun y => / INR (S n) * / c * (a + c * y) ^ S n) x ((a + c * x) ^ n).
Proof.
  intros C. assert (N : INR (S n) <> 0) by (apply not_0_INR; discriminate).
  replace ((a + c * x) ^ n) with (/ INR (S n) * / c * (INR (S n) * (a + c * x) ^ n * (0 + c * 1))) by (field; split; assumption).
  apply (derivable_pt_lim_scal (fun y => (a + c * y) ^ S n)). apply (derivable_pt_lim_comp (fun y => a + c * y) (fun y => y ^ S n)); [|apply pow_lim].
  apply (derivable_pt_lim_plus (fun _ => a) (fun y => c * y)); [apply derivable_pt_lim_const|]. apply derivable_pt_lim_scal. apply derivable_pt_lim_id.
Qed.
Lemma halves : exists A C, over_triangle (fun u w => h (u + w) * kk u) A /\ over_triangle (fun u w => h (u + w) * kk w) A /\
  over_triangle (fun u w => h u * kk (u + w)) C /\ over_triangle (fun u w => h w * kk (u + w)) C /\
  ly * lz * (A + C) = power_mean (py lo) (py up) j * power_mean (pz lo) (pz up) k.
Proof.
  assert (Y := B AY). assert (Z := B AZ). cbn [at_ lower upper] in Y, Z.
  assert (PY := poly_at AY). assert (PZ := poly_at AZ). cbn [at_] in PY, PZ.
  assert (Pp : forall f n, polynomial f -> polynomial (fun p => f p ^ n)).
  { intros f n Hf. induction n as [|n IH]; cbn [pow]; [apply poly_const | apply poly_mult; assumption]. }
  assert (Ph : forall f, polynomial f -> polynomial (fun p => h (f p))) by (intros f Hf; unfold h; apply (Pp (fun p => py lo + ly * f p)); poly).
  assert (Pk : forall f, polynomial f -> polynomial (fun p => kk (f p))) by (intros f Hf; unfold kk; apply (Pp (fun p => pz lo + lz * f p)); poly).
  assert (PS : polynomial (fun p => py p + pz p)) by poly.
  assert (PS' : polynomial (fun p => pz p + py p)) by poly.
  assert (P1 : polynomial (fun p => h (py p + pz p) * kk (py p))) by (apply poly_mult; auto).
  assert (P2 : polynomial (fun p => h (py p) * kk (py p + pz p))) by (apply poly_mult; auto).
  destruct (triangle_exists (fun u w => h (u + w) * kk u) P1) as (A & HA). destruct (triangle_exists (fun u w => h u * kk (u + w)) P2) as (C & HC).
  exists A, C. split; [exact HA|]. split; [|split; [exact HC|split]].
  - eapply over_triangle_ext; [|apply (triangle_swap _ _ P1 HA)]. intros u w. cbv beta. rewrite (Rplus_comm w u). reflexivity.
  - eapply over_triangle_ext; [|apply (triangle_swap _ _ P2 HC)]. intros u w. cbv beta. rewrite (Rplus_comm w u). reflexivity.
  - assert (Ly : ly <> 0) by (unfold ly; lra). assert (Lz : lz <> 0) by (unfold lz; lra).
    rewrite (rectangle h kk _ _ (fun x => affine_lim (py lo) ly j x Ly) (fun x => affine_lim (pz lo) lz k x Lz) A C HA HC).
    unfold power_mean. replace (py lo + ly * 1) with (py up) by (unfold ly; ring). replace (py lo + ly * 0) with (py lo) by ring.
    replace (pz lo + lz * 1) with (pz up) by (unfold lz; ring). replace (pz lo + lz * 0) with (pz lo) by ring.
    assert (N1 := not_0_INR (S j) (Nat.neq_succ_0 j)). assert (N2 := not_0_INR (S k) (Nat.neq_succ_0 k)). field. tauto.
Qed.
Lemma box_outflow i : outflow (map fst (box_tris lo up)) (along_x (i, j, k)) (power_mean (px lo) (px up) i * power_mean (py lo) (py up) j * power_mean (pz lo) (pz up) k).
Proof.
  destruct halves as (A & C & A1 & A2 & C1 & C2 & E). rewrite Rmult_assoc, <- E.
  pose (cl := - (ly * lz) * (/ INR (S i) * px lo ^ S i)). pose (cu := (ly * lz) * (/ INR (S i) * px up ^ S i)).
  exists [cl * A; cl * C; cu * C; cu * A; 0; 0; 0; 0; 0; 0; 0; 0]. split.
  - unfold box_tris. cbn [map fst]. repeat apply Forall2_cons; [..|apply Forall2_nil];
    match goal with |- over_triangle _ 0 => eapply over_triangle_ext; [|apply over_triangle_zero]; intros u w; unfold dot, along_x, area2, cross, vsub; cbn [P1 P2 P3 px py pz]; ring | _ => idtac end.
    + eapply over_triangle_ext; [|apply (over_triangle_scal cl _ _ A1)]. intros u w. cbv beta. unfold dot, along_x, area2, cross, vsub, mono, position, vadd, vscale, cl, h, kk, ly, lz. cbn [P1 P2 P3 px py pz].
      match goal with |- _ = (?a * (_ * (?x ^ _ * ?y ^ _ * ?z ^ _)) + _ + _) => replace x with (px lo) by ring; replace y with (py lo + (py up - py lo) * (u + w)) by ring; replace z with (pz lo + (pz up - pz lo) * u) by ring end. ring.
    + eapply over_triangle_ext; [|apply (over_triangle_scal cl _ _ C2)]. intros u w. cbv beta. unfold dot, along_x, area2, cross, vsub, mono, position, vadd, vscale, cl, h, kk, ly, lz. cbn [P1 P2 P3 px py pz].
      match goal with |- _ = (?a * (_ * (?x ^ _ * ?y ^ _ * ?z ^ _)) + _ + _) => replace x with (px lo) by ring; replace y with (py lo + (py up - py lo) * w) by ring; replace z with (pz lo + (pz up - pz lo) * (u + w)) by ring end. ring.
    + eapply over_triangle_ext; [|apply (over_triangle_scal cu _ _ C1)]. intros u w. cbv beta. unfold dot, along_x, area2, cross, vsub, mono, position, vadd, vscale, cu, h, kk, ly, lz. cbn [P1 P2 P3 px py pz].
      match goal with |- _ = (?a * (_ * (?x ^ _ * ?y ^ _ * ?z ^ _)) + _ + _) => replace x with (px up) by ring; replace y with (py lo + (py up - py lo) * u) by ring; replace z with (pz lo + (pz up - pz lo) * (u + w)) by ring end. ring.
    + eapply over_triangle_ext; [|apply (over_triangle_scal cu _ _ A2)]. intros u w. cbv beta. unfold dot, along_x, area2, cross, vsub, mono, position, vadd, vscale, cu, h, kk, ly, lz. cbn [P1 P2 P3 px py pz].
      match goal with |- _ = (?a * (_ * (?x ^ _ * ?y ^ _ * ?z ^ _)) + _ + _) => replace x with (px up) by ring; replace y with (py lo + (py up - py lo) * (u + w)) by ring; replace z with (pz lo + (pz up - pz lo) * w) by ring end. ring.
  - cbn [sum]. unfold power_mean, cl, cu. ring.
Qed.
End Faces.
Lemma newton_pow_box a b n : newton (fun x => x ^ n) a b (power_mean a b n).
Proof.
  exists (fun x => / INR (S n) * x ^ S n). split; [|unfold power_mean; ring]. intros x.
  replace (x ^ n) with (/ INR (S n) * (INR (S n) * x ^ n)) by (field; apply not_0_INR; discriminate). apply (derivable_pt_lim_scal (fun x => x ^ S n)). apply pow_lim.
Qed.
Lemma box_mono b i j k : over_box b (mono (i, j, k)) (power_mean (px (lower b)) (px (upper b)) i * power_mean (py (lower b)) (py (upper b)) j * power_mean (pz (lower b)) (pz (upper b)) k).
Proof.
  set (Y := power_mean (py (lower b)) (py (upper b)) j). set (Z := power_mean (pz (lower b)) (pz (upper b)) k).
  exists (fun x => (Y * Z) * x ^ i), (fun x y => (Z * x ^ i) * y ^ j). split; [|split].
  - intros x y. unfold mono. cbn [px py pz]. replace (Z * x ^ i * y ^ j) with ((x ^ i * y ^ j) * Z) by ring. apply newton_scal. apply newton_pow_box.
  - intros x. replace (Y * Z * x ^ i) with ((Z * x ^ i) * Y) by ring. apply newton_scal. apply newton_pow_box.
  - replace (power_mean (px (lower b)) (px (upper b)) i * Y * Z) with ((Y * Z) * power_mean (px (lower b)) (px (upper b)) i) by ring. apply newton_scal. apply newton_pow_box.
Qed.
Lemma box_closed lo up : closed (map fst (box_tris lo up)).
Proof. apply (manifold_closed (Pt 0 0 0) (mesh_box lo up)); [apply box_manifold | apply visit_fst, box_visit]. Qed.
Lemma box_integral lo up f : box_ok (Box lo up) -> polynomial f -> exists v, over_box (Box lo up) f v /\ forall o, enclosed o (map fst (box_tris lo up)) f v.
Proof.
  intros B (e & E). assert (G : forall ms, exists v, over_box (Box lo up) (mev ms) v /\ forall o, enclosed o (map fst (box_tris lo up)) (mev ms) v).
  { unfold mev. induction ms as [|[c [[i j] k]] ms (v & IB & IE)]; [exists 0; split; [apply over_box_zero | intros o; apply enclosed_zero]|].
    destruct (mono_enclosed _ (i, j, k) (box_closed lo up)) as (w & Hw & Ow). rewrite (outflow_unique _ _ _ _ Ow (box_outflow lo up B j k i)) in Hw.
    eexists. split.
    - cbn [sum fst snd]. apply (over_box_plus _ (fun p => c * mono (i, j, k) p)); [apply over_box_scal, box_mono | exact IB].
    - intros o. cbn [sum fst snd]. apply (enclosed_plus o _ (fun p => c * mono (i, j, k) p)); [apply enclosed_scal, Hw | apply IE]. }
  destruct (G (expand e)) as (v & Hb & He). exists v. split.
  - revert Hb. apply over_box_ext. intros p. rewrite expand_ok, E. reflexivity.
  - intros o. specialize (He o). revert He. apply enclosed_ext. intros p. rewrite expand_ok, E. reflexivity.
Qed.
