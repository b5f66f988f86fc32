(** The divergence theorem for polynomial fields and closed surfaces made of triangles. *)
From Coq Require Import Reals List Lia Lra Permutation.
From Verif Require Import Geo TrimmedQuadModel MeshModel MeshGeoModel MeshGeoProofs MeshBoxProofs DivSpec.
Import ListNotations.
Local Open Scope R_scope.

(** *** Integrals of functions of one variable *)
Lemma newton_unique f g a b v w : (forall x, f x = g x) -> newton f a b v -> newton g a b w -> v = w.
Proof.
  intros E (F & HF & ->) (G & HG & ->).
  assert (D : forall x, derivable_pt_lim (F - G)%F x 0).
  { intros x. replace 0 with (f x - g x) by (rewrite (E x); ring). apply derivable_pt_lim_minus; [apply HF | apply HG]. }
  assert (pr : derivable (F - G)%F) by (intros x; exists 0; apply D).
  assert (C : constant (F - G)%F).
  { apply null_derivative_1 with pr. intros x. apply derive_pt_eq_0. apply D. }
  specialize (C a b). unfold minus_fct in C. lra.
Qed.
Lemma newton_ext f g a b v : (forall x, f x = g x) -> newton f a b v -> newton g a b v.
Proof. intros E (F & HF & ->). exists F. split; [|reflexivity]. intros x. rewrite <- E. apply HF. Qed.
Lemma newton_zero a b : newton (fun _ => 0) a b 0.
Proof. exists (fun _ => 0). split; [|ring]. intros x. apply derivable_pt_lim_const. Qed.
Lemma newton_plus f g a b v w : newton f a b v -> newton g a b w -> newton (fun x => f x + g x) a b (v + w).
Proof.
  intros (F & HF & ->) (G & HG & ->). exists (fun x => F x + G x). split; [|ring].
  intros x. apply (derivable_pt_lim_plus F G); [apply HF | apply HG].
Qed.
Lemma newton_scal c f a b v : newton f a b v -> newton (fun x => c * f x) a b (c * v).
Proof.
  intros (F & HF & ->). exists (fun x => c * F x). split; [|ring].
  intros x. apply (derivable_pt_lim_scal F); apply HF.
Qed.
Lemma newton_flip f v : newton f 0 1 v -> newton (fun x => f (1 - x)) 0 1 v.
Proof.
  intros (F & HF & ->). exists (fun x => - F (1 - x)). split.
  - intros x. replace (f (1 - x)) with (- (f (1 - x) * (0 - 1))) by ring.
    apply (derivable_pt_lim_opp (fun x => F (1 - x))). apply (derivable_pt_lim_comp (fun x => 1 - x) F); [|apply HF].
    apply (derivable_pt_lim_minus (fun _ => 1) (fun x => x)); [apply derivable_pt_lim_const | apply derivable_pt_lim_id].
  - replace (1 - 1) with 0 by ring. replace (1 - 0) with 1 by ring. ring.
Qed.
Lemma newton_deriv F f a b v : (forall x, derivable_pt_lim F x (f x)) -> v = F b - F a -> newton f a b v.
Proof. intros H E. exists F. split; assumption. Qed.

(** The integral of (w - x)^a x^c from 0 to w. *)
Definition beta (a c : nat) : R := INR (fact a) * INR (fact c) / INR (fact (a + c + 1)).
Lemma fact_S n : INR (fact (S n)) = INR (S n) * INR (fact n).
Proof. change (fact (S n)) with (S n * fact n)%nat. apply mult_INR. Qed.
Lemma beta_0 c : beta 0 c = / INR (S c).
Proof.
  unfold beta. replace (0 + c + 1)%nat with (S c) by lia. rewrite fact_S. cbn [fact]. change (INR 1) with 1.
  assert (A := INR_fact_neq_0 c). assert (B := not_0_INR (S c) (Nat.neq_succ_0 c)). field. split; assumption.
Qed.
Lemma beta_S a c : INR (S c) * beta (S a) c = INR (S a) * beta a (S c).
Proof.
  unfold beta. replace (S a + c + 1)%nat with (S (a + c + 1)) by lia. replace (a + S c + 1)%nat with (S (a + c + 1)) by lia.
  rewrite !(fact_S a), !(fact_S c). field. apply INR_fact_neq_0.
Qed.
Lemma beta_sym a c : beta a c = beta c a.
Proof. unfold beta. replace (c + a + 1)%nat with (a + c + 1)%nat by lia. field. apply INR_fact_neq_0. Qed.
Lemma pow_lim n x : derivable_pt_lim (fun x => x ^ S n) x (INR (S n) * x ^ n).
Proof. exact (derivable_pt_lim_pow x (S n)). Qed.
Lemma back_pow_lim w n x : derivable_pt_lim (fun x => (w - x) ^ S n) x (- (INR (S n) * (w - x) ^ n)).
Proof.
  replace (- (INR (S n) * (w - x) ^ n)) with (INR (S n) * (w - x) ^ n * (0 - 1)) by ring.
  apply (derivable_pt_lim_comp (fun x => w - x) (fun y => y ^ S n)); [|apply pow_lim].
  apply (derivable_pt_lim_minus (fun _ => w) (fun x => x)); [apply derivable_pt_lim_const | apply derivable_pt_lim_id].
Qed.
Lemma newton_beta w : forall a c, newton (fun x => (w - x) ^ a * x ^ c) 0 w (w ^ (a + c + 1) * beta a c).
Proof.
  induction a as [|a IH]; intros c.
  - rewrite beta_0. apply (newton_deriv (fun x => / INR (S c) * x ^ S c)).
    + intros x. replace ((w - x) ^ 0 * x ^ c) with (/ INR (S c) * (INR (S c) * x ^ c)) by (cbn [pow]; field; apply not_0_INR; discriminate).
      apply (derivable_pt_lim_scal (fun x => x ^ S c)). apply pow_lim.
    + replace (0 + c + 1)%nat with (S c) by lia. rewrite (pow_i (S c)) by lia. ring.
  - assert (N := not_0_INR (S c) (Nat.neq_succ_0 c)).
    assert (B : beta (S a) c = INR (S a) / INR (S c) * beta a (S c)).
    { apply (Rmult_eq_reg_l (INR (S c))); [|exact N]. rewrite beta_S. field. exact N. }
    assert (A := newton_scal (INR (S a) / INR (S c)) _ _ _ _ (IH (S c))).
    assert (D : newton (fun x => / INR (S c) * (- (INR (S a) * (w - x) ^ a) * x ^ S c + (w - x) ^ S a * (INR (S c) * x ^ c))) 0 w 0).
    { apply (newton_deriv (fun x => / INR (S c) * ((w - x) ^ S a * x ^ S c))).
      - intros x. apply (derivable_pt_lim_scal (fun x => (w - x) ^ S a * x ^ S c)).
        apply (derivable_pt_lim_mult (fun x => (w - x) ^ S a) (fun x => x ^ S c)); [apply back_pow_lim | apply pow_lim].
      - rewrite (pow_i (S c)) by lia. replace (w - w) with 0 by ring. rewrite (pow_i (S a)) by lia. ring. }
    assert (P := newton_plus _ _ _ _ _ _ A D). rewrite B.
    replace (w ^ (S a + c + 1) * (INR (S a) / INR (S c) * beta a (S c))) with (INR (S a) / INR (S c) * (w ^ (a + S c + 1) * beta a (S c)) + 0).
    2:{ replace (S a + c + 1)%nat with (a + S c + 1)%nat by lia. ring. }
    revert P. apply newton_ext. intros x. cbn [pow]. field. exact N.
Qed.

(** *** Integrals over the triangle *)
Lemma over_triangle_unique f g v w : (forall x y, f x y = g x y) -> over_triangle f v -> over_triangle g w -> v = w.
Proof.
  intros E (F & HF & IF) (G & HG & IG). apply (newton_unique F G 0 1); [|exact IF|exact IG].
  intros u. exact (newton_unique _ _ _ _ _ _ (E u) (HF u) (HG u)).
Qed.
Lemma over_triangle_ext f g v : (forall x y, f x y = g x y) -> over_triangle f v -> over_triangle g v.
Proof. intros E (F & HF & IF). exists F. split; [|exact IF]. intros u. exact (newton_ext _ _ _ _ _ (E u) (HF u)). Qed.
Lemma over_triangle_zero : over_triangle (fun _ _ => 0) 0.
Proof. exists (fun _ => 0). split; [intros u|]; apply newton_zero. Qed.
Lemma over_triangle_plus f g v w : over_triangle f v -> over_triangle g w -> over_triangle (fun x y => f x y + g x y) (v + w).
Proof.
  intros (F & HF & IF) (G & HG & IG). exists (fun u => F u + G u). split; [|apply newton_plus; assumption].
  intros u. apply newton_plus; auto.
Qed.
Lemma over_triangle_scal c f v : over_triangle f v -> over_triangle (fun x y => c * f x y) (c * v).
Proof. intros (F & HF & IF). exists (fun u => c * F u). split; [|apply newton_scal; assumption]. intros u. apply newton_scal; auto. Qed.
(** The integral of a product of powers of the barycentric coordinates. *)
Definition dirichlet (a b c : nat) : R := INR (fact a) * INR (fact b) * INR (fact c) / INR (fact (a + b + c + 2)).
Lemma over_triangle_mono a b c : over_triangle (fun u w => (1 - u - w) ^ a * u ^ b * w ^ c) (dirichlet a b c).
Proof.
  exists (fun u => u ^ b * ((1 - u) ^ (a + c + 1) * beta a c)). split.
  - intros u. apply (newton_ext (fun w => u ^ b * ((1 - u - w) ^ a * w ^ c))); [intros w; ring|]. apply newton_scal. apply newton_beta.
  - assert (H := newton_scal (beta a c) _ _ _ _ (newton_beta 1 (a + c + 1) b)).
    replace (dirichlet a b c) with (beta a c * (1 ^ (a + c + 1 + b + 1) * beta (a + c + 1) b)).
    + revert H. apply newton_ext. intros u. ring.
    + rewrite pow1. unfold dirichlet, beta. replace (a + c + 1 + b + 1)%nat with (a + b + c + 2)%nat by lia.
      field. split; apply INR_fact_neq_0.
Qed.

(** *** Polynomials as sums of monomials in the variables (s, u, w) *)
Definition monos := list (R * (nat * nat * nat)).
Definition mono (m : nat * nat * nat) (p : pt) : R := let '(i, j, k) := m in px p ^ i * py p ^ j * pz p ^ k.
Definition mev (l : monos) (p : pt) : R := sum (fun m => fst m * mono (snd m) p) l.
Definition lin (phi : nat * nat * nat -> R) (l : monos) : R := sum (fun m => fst m * phi (snd m)) l.
Definition mmul1 (x y : R * (nat * nat * nat)) : R * (nat * nat * nat) :=
  let '(i, j, k) := snd x in let '(i', j', k') := snd y in (fst x * fst y, (i + i', j + j', k + k')%nat).
Definition mmul (l r : monos) : monos := flat_map (fun x => map (mmul1 x) r) l.
Fixpoint expand (e : pexp) : monos :=
  match e with
  | Cst r => [(r, (0, 0, 0)%nat)]
  | Var AX => [(1, (1, 0, 0)%nat)]
  | Var AY => [(1, (0, 1, 0)%nat)]
  | Var AZ => [(1, (0, 0, 1)%nat)]
  | Add e f => expand e ++ expand f
  | Mul e f => mmul (expand e) (expand f)
  end.
Lemma mev_mul l r p : mev (mmul l r) p = mev l p * mev r p.
Proof.
  unfold mmul, mev. rewrite sum_flat'. induction l as [|[c [[i j] k]] l IH]; cbn [sum]; [ring|]. rewrite IH, sum_map.
  rewrite (sum_ext (fun a => fst (mmul1 (c, (i, j, k)) a) * mono (snd (mmul1 (c, (i, j, k)) a)) p)
                   (fun a => fst (c, (i, j, k)) * mono (snd (c, (i, j, k))) p * (fst a * mono (snd a) p))).
  - rewrite sum_scal. ring.
  - intros [c' [[i' j'] k']] _. unfold mmul1, mono. cbn [fst snd]. rewrite !pow_add. ring.
Qed.
Lemma mev_app l r p : mev (l ++ r) p = mev l p + mev r p.
Proof. apply sum_app. Qed.
Lemma expand_ok e p : mev (expand e) p = pev e p.
Proof.
  induction e as [r|a|e IHe f IHf|e IHe f IHf]; cbn [expand pev].
  - unfold mev, mono. cbn. ring.
  - destruct a; unfold mev, mono; cbn; ring.
  - rewrite mev_app, IHe, IHf. reflexivity.
  - rewrite mev_mul, IHe, IHf. reflexivity.
Qed.
(** Formal derivatives. *)
Definition lower_exp (a : axis) (m : R * (nat * nat * nat)) : R * (nat * nat * nat) :=
  let '(i, j, k) := snd m in
  match a with
  | AX => (fst m * INR i, (pred i, j, k))
  | AY => (fst m * INR j, (i, pred j, k))
  | AZ => (fst m * INR k, (i, j, pred k))
  end.
Fixpoint pd (a : axis) (e : pexp) : pexp :=
  match e with
  | Cst _ => Cst 0
  | Var b => Cst (match a, b with AX, AX | AY, AY | AZ, AZ => 1 | _, _ => 0 end)
  | Add e f => Add (pd a e) (pd a f)
  | Mul e f => Add (Mul (pd a e) f) (Mul e (pd a f))
  end.
(** A point with one coordinate replaced. *)
Definition put (a : axis) (x : R) (p : pt) : pt := match a with AX => Pt x (py p) (pz p) | AY => Pt (px p) x (pz p) | AZ => Pt (px p) (py p) x end.
Lemma put_same a p : put a (at_ a p) p = p.
Proof. destruct a, p; reflexivity. Qed.
Lemma put_at a x p : at_ a (put a x p) = x.
Proof. destruct a; reflexivity. Qed.
Lemma at_put a b x p : at_ a (put b x p) = match b, a with AX, AX | AY, AY | AZ, AZ => x | _, _ => at_ a p end.
Proof. destruct a, b; reflexivity. Qed.
Lemma pd_ok a e p x : derivable_pt_lim (fun x => pev e (put a x p)) x (pev (pd a e) (put a x p)).
Proof.
  induction e as [r|b|e IHe f IHf|e IHe f IHf]; cbn [pev pd].
  - apply derivable_pt_lim_const.
  - destruct a, b; cbn [put at_ px py pz]; first [apply derivable_pt_lim_id | apply derivable_pt_lim_const].
  - apply (derivable_pt_lim_plus (fun x => pev e (put a x p))); assumption.
  - apply (derivable_pt_lim_mult (fun x => pev e (put a x p))); assumption.
Qed.
Lemma pow_lim' i x : derivable_pt_lim (fun x => x ^ i) x (INR i * x ^ pred i).
Proof. destruct i; [cbn [pow INR]; rewrite Rmult_0_l; apply derivable_pt_lim_const | apply pow_lim]. Qed.
Lemma lim_ext f g x d : (forall y, f y = g y) -> derivable_pt_lim f x d -> derivable_pt_lim g x d.
Proof. intros E H eps He. destruct (H eps He) as [dl Hd]. exists dl. intros h H0 H1. rewrite <- !E. exact (Hd h H0 H1). Qed.
Lemma lower_exp_ok a l p x : derivable_pt_lim (fun x => mev l (put a x p)) x (mev (map (lower_exp a) l) (put a x p)).
Proof.
  unfold mev. induction l as [|[c [[i j] k]] l IH]; cbn [map sum]; [apply derivable_pt_lim_const|].
  apply (derivable_pt_lim_plus (fun x => c * mono (i, j, k) (put a x p)) (fun x => sum (fun m => fst m * mono (snd m) (put a x p)) l)); [clear IH|exact IH].
  destruct a; unfold lower_exp, mono; cbn [fst snd put px py pz].
  - replace (c * INR i * (x ^ pred i * py p ^ j * pz p ^ k)) with ((c * py p ^ j * pz p ^ k) * (INR i * x ^ pred i)) by ring.
    apply (lim_ext (fun x => (c * py p ^ j * pz p ^ k) * x ^ i)); [intros y; ring|]. apply (derivable_pt_lim_scal (fun x => x ^ i)). apply pow_lim'.
  - replace (c * INR j * (px p ^ i * x ^ pred j * pz p ^ k)) with ((c * px p ^ i * pz p ^ k) * (INR j * x ^ pred j)) by ring.
    apply (lim_ext (fun x => (c * px p ^ i * pz p ^ k) * x ^ j)); [intros y; ring|]. apply (derivable_pt_lim_scal (fun x => x ^ j)). apply pow_lim'.
  - replace (c * INR k * (px p ^ i * py p ^ j * x ^ pred k)) with ((c * px p ^ i * py p ^ j) * (INR k * x ^ pred k)) by ring.
    apply (lim_ext (fun x => (c * px p ^ i * py p ^ j) * x ^ k)); [intros y; ring|]. apply (derivable_pt_lim_scal (fun x => x ^ k)). apply pow_lim'.
Qed.
Lemma formal a e p : mev (map (lower_exp a) (expand e)) p = pev (pd a e) p.
Proof.
  rewrite <- (put_same a p). apply (uniqueness_limite (fun x => pev e (put a x p)) (at_ a p)); [|apply pd_ok].
  apply (lim_ext (fun x => mev (expand e) (put a x p))); [intros y; apply expand_ok | apply lower_exp_ok].
Qed.

(** *** Integrals over the prism 0 <= s <= 1, (u, w) in the triangle, and over its sides *)
Definition prism (f : R -> R -> R -> R) (v : R) : Prop := exists g, (forall s, over_triangle (f s) (g s)) /\ newton g 0 1 v.
Definition square (f : R -> R -> R) (v : R) : Prop := exists g, (forall s, newton (f s) 0 1 (g s)) /\ newton g 0 1 v.
Lemma prism_unique f g v w : (forall s x y, f s x y = g s x y) -> prism f v -> prism g w -> v = w.
Proof.
  intros E (F & HF & IF) (G & HG & IG). apply (newton_unique F G 0 1); [|exact IF|exact IG].
  intros s. exact (over_triangle_unique _ _ _ _ (E s) (HF s) (HG s)).
Qed.
Lemma square_unique f g v w : (forall s x, f s x = g s x) -> square f v -> square g w -> v = w.
Proof.
  intros E (F & HF & IF) (G & HG & IG). apply (newton_unique F G 0 1); [|exact IF|exact IG].
  intros s. exact (newton_unique _ _ _ _ _ _ (E s) (HF s) (HG s)).
Qed.
Lemma square_ext f g v : (forall s x, f s x = g s x) -> square f v -> square g v.
Proof. intros E (F & HF & IF). exists F. split; [|exact IF]. intros s. exact (newton_ext _ _ _ _ _ (E s) (HF s)). Qed.
Lemma square_flip f v : square f v -> square (fun s x => f s (1 - x)) v.
Proof. intros (F & HF & IF). exists F. split; [|exact IF]. intros s. apply newton_flip. apply HF. Qed.
Lemma square_scal c f v : square f v -> square (fun s x => c * f s x) (c * v).
Proof. intros (F & HF & IF). exists (fun s => c * F s). split; [|apply newton_scal; exact IF]. intros s. apply newton_scal. apply HF. Qed.
Lemma newton_pow i : newton (fun s => s ^ i) 0 1 (/ INR (S i)).
Proof.
  rewrite <- beta_0. assert (H := newton_beta 1 0 i). rewrite pow1, Rmult_1_l in H. revert H. apply newton_ext. intros s. cbn [pow]. ring.
Qed.
(** The values for monomials. *)
Definition in_prism (m : nat * nat * nat) : R := let '(i, j, k) := m in / INR (S i) * dirichlet 0 j k.
Definition at_top (m : nat * nat * nat) : R := let '(i, j, k) := m in dirichlet 0 j k.
Definition at_slope (m : nat * nat * nat) : R := let '(i, j, k) := m in / INR (S i) * beta j k.
Definition at_zero_u (m : nat * nat * nat) : R := let '(i, j, k) := m in match j with O => / INR (S i) * / INR (S k) | _ => 0 end.
Definition at_zero_w (m : nat * nat * nat) : R := let '(i, j, k) := m in match k with O => / INR (S i) * / INR (S j) | _ => 0 end.
Lemma triangle_monos l s : over_triangle (fun u w => mev l (Pt s u w)) (sum (fun m => fst m * (s ^ fst (fst (snd m)) * at_top (snd m))) l).
Proof.
  induction l as [|[c [[i j] k]] l IH]; unfold mev; cbn [sum]; [apply over_triangle_zero|]. apply over_triangle_plus; [|exact IH].
  unfold mono, at_top. cbn [fst snd px py pz]. assert (H := over_triangle_scal (c * s ^ i) _ _ (over_triangle_mono 0 j k)).
  rewrite Rmult_assoc in H. revert H. apply over_triangle_ext. intros u w. cbn [pow]. ring.
Qed.
Lemma prism_monos l : prism (fun s u w => mev l (Pt s u w)) (lin in_prism l).
Proof.
  exists (fun s => sum (fun m => fst m * (s ^ fst (fst (snd m)) * at_top (snd m))) l). split; [intros s; apply triangle_monos|].
  unfold lin. induction l as [|[c [[i j] k]] l IH]; cbn [sum]; [apply newton_zero|]. apply newton_plus; [|exact IH].
  cbn [fst snd at_top in_prism]. assert (H := newton_scal (c * dirichlet 0 j k) _ _ _ _ (newton_pow i)).
  replace (c * (/ INR (S i) * dirichlet 0 j k)) with (c * dirichlet 0 j k * / INR (S i)) by ring. revert H. apply newton_ext. intros s. ring.
Qed.
Lemma slope_monos l : square (fun s x => mev l (Pt s (1 - x) x)) (lin at_slope l).
Proof.
  exists (fun s => sum (fun m => fst m * (s ^ fst (fst (snd m)) * beta (snd (fst (snd m))) (snd (snd m)))) l). split.
  - intros s. induction l as [|[c [[i j] k]] l IH]; unfold mev; cbn [sum]; [apply newton_zero|]. apply newton_plus; [|exact IH].
    unfold mono. cbn [fst snd px py pz]. assert (H := newton_scal (c * s ^ i) _ _ _ _ (newton_beta 1 j k)).
    rewrite pow1, Rmult_1_l, Rmult_assoc in H. revert H. apply newton_ext. intros x. ring.
  - unfold lin. induction l as [|[c [[i j] k]] l IH]; cbn [sum]; [apply newton_zero|]. apply newton_plus; [|exact IH].
    cbn [fst snd at_slope]. assert (H := newton_scal (c * beta j k) _ _ _ _ (newton_pow i)).
    replace (c * (/ INR (S i) * beta j k)) with (c * beta j k * / INR (S i)) by ring. revert H. apply newton_ext. intros s. ring.
Qed.
Lemma zero_u_monos l : square (fun s x => mev l (Pt s 0 x)) (lin at_zero_u l).
Proof.
  exists (fun s => sum (fun m => fst m * (s ^ fst (fst (snd m)) * (0 ^ snd (fst (snd m)) * / INR (S (snd (snd m)))))) l). split.
  - intros s. induction l as [|[c [[i j] k]] l IH]; unfold mev; cbn [sum]; [apply newton_zero|]. apply newton_plus; [|exact IH].
    unfold mono. cbn [fst snd px py pz]. assert (H := newton_scal (c * s ^ i * 0 ^ j) _ _ _ _ (newton_pow k)).
    rewrite !Rmult_assoc in H. revert H. apply newton_ext. intros x. ring.
  - unfold lin. induction l as [|[c [[i j] k]] l IH]; cbn [sum]; [apply newton_zero|]. apply newton_plus; [|exact IH].
    cbn [fst snd at_zero_u]. destruct j as [|j].
    + assert (H := newton_scal (c * / INR (S k)) _ _ _ _ (newton_pow i)).
      replace (c * (/ INR (S i) * / INR (S k))) with (c * / INR (S k) * / INR (S i)) by ring. revert H. apply newton_ext. intros s. cbn [pow]. ring.
    + rewrite Rmult_0_r. apply (newton_ext (fun _ => 0)); [intros s; cbn [pow]; ring | apply newton_zero].
Qed.
Lemma zero_w_monos l : square (fun s x => mev l (Pt s x 0)) (lin at_zero_w l).
Proof.
  exists (fun s => sum (fun m => fst m * (s ^ fst (fst (snd m)) * (0 ^ snd (snd m) * / INR (S (snd (fst (snd m))))))) l). split.
  - intros s. induction l as [|[c [[i j] k]] l IH]; unfold mev; cbn [sum]; [apply newton_zero|]. apply newton_plus; [|exact IH].
    unfold mono. cbn [fst snd px py pz]. assert (H := newton_scal (c * s ^ i * 0 ^ k) _ _ _ _ (newton_pow j)).
    rewrite !Rmult_assoc in H. revert H. apply newton_ext. intros x. ring.
  - unfold lin. induction l as [|[c [[i j] k]] l IH]; cbn [sum]; [apply newton_zero|]. apply newton_plus; [|exact IH].
    cbn [fst snd at_zero_w]. destruct k as [|k].
    + assert (H := newton_scal (c * / INR (S j)) _ _ _ _ (newton_pow i)).
      replace (c * (/ INR (S i) * / INR (S j))) with (c * / INR (S j) * / INR (S i)) by ring. revert H. apply newton_ext. intros s. cbn [pow]. ring.
    + rewrite Rmult_0_r. apply (newton_ext (fun _ => 0)); [intros s; cbn [pow]; ring | apply newton_zero].
Qed.
(** Integrals of derivatives. *)
Lemma lin_app phi l r : lin phi (l ++ r) = lin phi l + lin phi r.
Proof. apply sum_app. Qed.
Lemma dirichlet_beta j k : dirichlet 0 j k = beta (S j) k / INR (S j).
Proof.
  unfold dirichlet, beta. replace (0 + j + k + 2)%nat with (S j + k + 1)%nat by lia. rewrite (fact_S j). cbn [fact]. change (INR 1) with 1.
  field. split; first [apply INR_fact_neq_0 | apply not_0_INR; discriminate].
Qed.
Lemma dirichlet_beta' j k : dirichlet 0 j k = beta j (S k) / INR (S k).
Proof.
  unfold dirichlet, beta. replace (0 + j + k + 2)%nat with (j + S k + 1)%nat by lia. rewrite (fact_S k). cbn [fact]. change (INR 1) with 1.
  field. split; first [apply INR_fact_neq_0 | apply not_0_INR; discriminate].
Qed.
Lemma prism_du l : lin in_prism (map (lower_exp AY) l) = lin at_slope l - lin at_zero_u l.
Proof.
  unfold lin. induction l as [|[c [[i j] k]] l IH]; cbn [map sum]; [ring|]. rewrite IH. unfold lower_exp. cbn [fst snd in_prism at_slope at_zero_u].
  destruct j as [|j]; cbn [pred]; [rewrite beta_0; change (INR 0) with 0; ring|]. rewrite dirichlet_beta.
  assert (N : INR (S j) <> 0) by (apply not_0_INR; discriminate). assert (N' : INR (S i) <> 0) by (apply not_0_INR; discriminate). field. split; assumption.
Qed.
Lemma prism_dw l : lin in_prism (map (lower_exp AZ) l) = lin at_slope l - lin at_zero_w l.
Proof.
  unfold lin. induction l as [|[c [[i j] k]] l IH]; cbn [map sum]; [ring|]. rewrite IH. unfold lower_exp. cbn [fst snd in_prism at_slope at_zero_w].
  destruct k as [|k]; cbn [pred]; [rewrite beta_sym, beta_0; change (INR 0) with 0; ring|]. rewrite dirichlet_beta'.
  assert (N : INR (S k) <> 0) by (apply not_0_INR; discriminate). assert (N' : INR (S i) <> 0) by (apply not_0_INR; discriminate). field. split; assumption.
Qed.
Definition value_s (x : R) (l : monos) : R := sum (fun m => fst m * (x ^ fst (fst (snd m)) * at_top (snd m))) l.
Lemma prism_ds l : lin in_prism (map (lower_exp AX) l) = value_s 1 l - value_s 0 l.
Proof.
  unfold lin, value_s. induction l as [|[c [[i j] k]] l IH]; cbn [map sum]; [ring|]. rewrite IH. unfold lower_exp. cbn [fst snd in_prism at_top].
  rewrite pow1. destruct i as [|i]; cbn [pred pow]; [change (INR 0) with 0; ring|].
  assert (N : INR (S i) <> 0) by (apply not_0_INR; discriminate). field. exact N.
Qed.
(** The divergence theorem on the prism. *)
Lemma on_prism P Q W D : (forall p, pev D p = pev (pd AX P) p + pev (pd AY Q) p + pev (pd AZ W) p) ->
  lin in_prism (expand D) = value_s 1 (expand P) - value_s 0 (expand P) + (lin at_slope (expand Q) - lin at_zero_u (expand Q))
    + (lin at_slope (expand W) - lin at_zero_w (expand W)).
Proof.
  intros E. rewrite <- prism_ds, <- prism_du, <- prism_dw, <- !lin_app.
  apply (prism_unique (fun s u w => mev (expand D) (Pt s u w))
    (fun s u w => mev ((map (lower_exp AX) (expand P) ++ map (lower_exp AY) (expand Q)) ++ map (lower_exp AZ) (expand W)) (Pt s u w)));
    [|apply prism_monos|apply prism_monos].
  intros s u w. rewrite !mev_app, !formal, expand_ok. apply E.
Qed.

(** *** One triangle *)
Fixpoint psub (e : pexp) (X : axis -> pexp) : pexp :=
  match e with Cst r => Cst r | Var a => X a | Add e f => Add (psub e X) (psub f X) | Mul e f => Mul (psub e X) (psub f X) end.
Definition image (X : axis -> pexp) (p : pt) : pt := Pt (pev (X AX) p) (pev (X AY) p) (pev (X AZ) p).
Lemma psub_ok e X p : pev (psub e X) p = pev e (image X p).
Proof.
  induction e as [r|a|e IHe f IHf|e IHe f IHf]; cbn [psub pev]; [reflexivity|destruct a; reflexivity| |]; rewrite IHe, IHf; reflexivity.
Qed.
Lemma chain a e X p : pev (pd a (psub e X)) p =
  pev (pd AX e) (image X p) * pev (pd a (X AX)) p + pev (pd AY e) (image X p) * pev (pd a (X AY)) p + pev (pd AZ e) (image X p) * pev (pd a (X AZ)) p.
Proof.
  induction e as [r|b|e IHe f IHf|e IHe f IHf]; cbn [psub pev pd].
  - ring.
  - destruct b; ring.
  - rewrite IHe, IHf. ring.
  - rewrite IHe, IHf, !psub_ok. ring.
Qed.
Definition dotp (F V : axis -> pexp) : pexp := Add (Add (Mul (F AX) (V AX)) (Mul (F AY) (V AY))) (Mul (F AZ) (V AZ)).
Definition constv (v : pt) (a : axis) : pexp := Cst (at_ a v).
Definition subp (e f : pexp) : pexp := Add e (Mul (Cst (-1)) f).
Definition crossp (F V : axis -> pexp) (a : axis) : pexp :=
  match a with
  | AX => subp (Mul (F AY) (V AZ)) (Mul (F AZ) (V AY))
  | AY => subp (Mul (F AZ) (V AX)) (Mul (F AX) (V AZ))
  | AZ => subp (Mul (F AX) (V AY)) (Mul (F AY) (V AX))
  end.
Definition at_field (F : axis -> pexp) (p : pt) : pt := Pt (pev (F AX) p) (pev (F AY) p) (pev (F AZ) p).
Definition divp (F : axis -> pexp) : pexp := Add (Add (pd AX (F AX)) (pd AY (F AY))) (pd AZ (F AZ)).

Section OneTriangle.
Variable F : axis -> pexp.
Variable o : pt.
Section Triangle.
Variable t : tri pt.
Let e1 := vsub (P2 t) (P1 t).
Let e2 := vsub (P3 t) (P1 t).
Definition ray_to (a : axis) : pexp :=
  Add (Cst (at_ a (vsub (P1 t) o))) (Add (Mul (Var AY) (Cst (at_ a e1))) (Mul (Var AZ) (Cst (at_ a e2)))).
Definition place (a : axis) : pexp := Add (Cst (at_ a o)) (Mul (Var AX) (ray_to a)).
Definition field_at (a : axis) : pexp := psub (F a) place.
Definition flow_s : pexp := Mul (Mul (Var AX) (Var AX)) (dotp field_at (constv (area2 t))).
Definition flow_u : pexp := Mul (Var AX) (dotp field_at (crossp (constv e2) ray_to)).
Definition flow_w : pexp := Mul (Var AX) (dotp field_at (crossp ray_to (constv e1))).
Definition source : pexp := Mul (Mul (Var AX) (Var AX)) (Mul (Cst (cone_det o t)) (psub (divp F) place)).
Lemma place_at p : image place p = toward o (px p) (position t (py p) (pz p)).
Proof.
  unfold image, place, ray_to, toward, position, e1, e2, vadd, vscale, vsub. cbn [pev at_ px py pz]. f_equal; ring.
Qed.
Lemma field_at_ok p : at_field field_at p = at_field F (toward o (px p) (position t (py p) (pz p))).
Proof. unfold at_field, field_at. rewrite !psub_ok, place_at. reflexivity. Qed.
Lemma balance p : pev source p = pev (pd AX flow_s) p + pev (pd AY flow_u) p + pev (pd AZ flow_w) p.
Proof.
  unfold source, flow_s, flow_u, flow_w, dotp, crossp, constv, subp. cbn [pev pd]. unfold field_at. rewrite !chain, !psub_ok.
  unfold divp. cbn [pev]. set (q := image place p).
  generalize (pev (F AX) q) (pev (F AY) q) (pev (F AZ) q)
    (pev (pd AX (F AX)) q) (pev (pd AX (F AY)) q) (pev (pd AX (F AZ)) q)
    (pev (pd AY (F AX)) q) (pev (pd AY (F AY)) q) (pev (pd AY (F AZ)) q)
    (pev (pd AZ (F AX)) q) (pev (pd AZ (F AY)) q) (pev (pd AZ (F AZ)) q).
  intros. clear q. unfold cone_det, area2, dot, cross, place, ray_to, e1, e2, vsub. cbn [pev pd at_ px py pz].
  ring.
Qed.
End Triangle.
(** The flow through the side of the cone over an edge. *)
Definition edge_place (e : pt * pt) (a : axis) : pexp :=
  Add (Cst (at_ a o)) (Mul (Var AX) (Add (Cst (at_ a (vsub (fst e) o))) (Mul (Var AY) (Cst (at_ a (vsub (snd e) (fst e))))))).
Definition edge_flow (e : pt * pt) : pexp :=
  Mul (Var AX) (dotp (fun a => psub (F a) (edge_place e)) (constv (cross (vsub (fst e) o) (vsub (snd e) o)))).
Definition through_edge (e : pt * pt) : R := lin at_zero_w (expand (edge_flow e)).
Definition between (e : pt * pt) (x : R) : pt := vadd (vscale (1 - x) (fst e)) (vscale x (snd e)).
Definition edge_density (e : pt * pt) (s x : R) : R :=
  s * dot (at_field F (toward o s (between e x))) (cross (vsub (fst e) o) (vsub (snd e) o)).
Lemma through_edge_ok e : square (edge_density e) (through_edge e).
Proof.
  unfold through_edge. assert (H := zero_w_monos (expand (edge_flow e))). revert H. apply square_ext. intros s x. rewrite expand_ok.
  unfold edge_flow, edge_density, dotp, constv, dot, at_field. cbn [pev]. rewrite !psub_ok. cbn [at_ px py pz].
  replace (image (edge_place e) (Pt s x 0)) with (toward o s (between e x)); [ring|].
  unfold image, edge_place, toward, between, vadd, vscale, vsub. cbn [pev at_ px py pz]. f_equal; ring.
Qed.
Lemma edge_reversed a b : through_edge (b, a) = - through_edge (a, b).
Proof.
  replace (- through_edge (a, b)) with (-1 * through_edge (a, b)) by ring.
  apply (square_unique (edge_density (b, a)) (fun s x => -1 * edge_density (a, b) s (1 - x))).
  - intros s x. unfold edge_density. cbn [fst snd].
    replace (between (a, b) (1 - x)) with (between (b, a) x) by (unfold between, vadd, vscale; cbn [fst snd px py pz]; f_equal; ring).
    unfold dot, cross. cbn [px py pz]. ring.
  - apply through_edge_ok.
  - apply (square_scal (-1) (fun s x => edge_density (a, b) s (1 - x))). apply square_flip. apply through_edge_ok.
Qed.
Definition through (t : tri pt) : R := value_s 1 (expand (flow_s t)).
Definition produced (t : tri pt) : R := lin in_prism (expand (source t)).
Lemma flow_u_at t p : pev (flow_u t) p =
  px p * dot (at_field F (toward o (px p) (position t (py p) (pz p)))) (cross (vsub (P3 t) (P1 t)) (vsub (position t (py p) (pz p)) o)).
Proof.
  unfold flow_u, dotp, crossp, constv, subp, dot, field_at, at_field. cbn [pev]. rewrite !psub_ok, !place_at.
  unfold ray_to, cross, position, vsub, vadd, vscale. cbn [pev at_ px py pz]. ring.
Qed.
Lemma flow_w_at t p : pev (flow_w t) p =
  px p * dot (at_field F (toward o (px p) (position t (py p) (pz p)))) (cross (vsub (position t (py p) (pz p)) o) (vsub (P2 t) (P1 t))).
Proof.
  unfold flow_w, dotp, crossp, constv, subp, dot, field_at, at_field. cbn [pev]. rewrite !psub_ok, !place_at.
  unfold ray_to, cross, position, vsub, vadd, vscale. cbn [pev at_ px py pz]. ring.
Qed.
Lemma one_triangle t : through t = produced t + sum through_edge (tri_edges t).
Proof.
  assert (B := on_prism _ _ _ _ (balance t)). fold (produced t) (through t) in B.
  assert (Z0 : value_s 0 (expand (flow_s t)) = 0).
  { apply (over_triangle_unique (fun u w => mev (expand (flow_s t)) (Pt 0 u w)) (fun _ _ => 0)); [|apply triangle_monos|apply over_triangle_zero].
    intros u w. rewrite expand_ok. unfold flow_s. cbn [pev at_ px]. ring. }
  assert (Z1 : lin at_zero_w (expand (flow_w t)) = through_edge (P1 t, P2 t)).
  { apply (square_unique (fun s x => mev (expand (flow_w t)) (Pt s x 0)) (edge_density (P1 t, P2 t))); [|apply zero_w_monos|apply through_edge_ok].
    intros s x. rewrite expand_ok, flow_w_at. unfold edge_density. cbn [fst snd px py pz].
    replace (position t x 0) with (between (P1 t, P2 t) x) by (unfold position, between, vadd, vscale; cbn [fst snd px py pz]; f_equal; ring).
    f_equal. f_equal. unfold between, cross, vsub, vadd, vscale. cbn [fst snd px py pz]. f_equal; ring. }
  assert (Z2 : lin at_zero_u (expand (flow_u t)) = through_edge (P3 t, P1 t)).
  { apply (square_unique (fun s x => mev (expand (flow_u t)) (Pt s 0 x)) (fun s x => edge_density (P3 t, P1 t) s (1 - x))); [|apply zero_u_monos|apply square_flip, through_edge_ok].
    intros s x. rewrite expand_ok, flow_u_at. unfold edge_density. cbn [fst snd px py pz].
    replace (between (P3 t, P1 t) (1 - x)) with (position t 0 x) by (unfold position, between, vadd, vscale; cbn [fst snd px py pz]; f_equal; ring).
    f_equal. f_equal. unfold position, cross, vsub, vadd, vscale. cbn [fst snd px py pz]. f_equal; ring. }
  assert (Z3 : lin at_slope (expand (flow_u t)) + lin at_slope (expand (flow_w t)) = -1 * through_edge (P2 t, P3 t)).
  { rewrite <- lin_app. change (expand (flow_u t) ++ expand (flow_w t)) with (expand (Add (flow_u t) (flow_w t))).
    apply (square_unique (fun s x => mev (expand (Add (flow_u t) (flow_w t))) (Pt s (1 - x) x)) (fun s x => -1 * edge_density (P2 t, P3 t) s x));
      [|apply slope_monos|apply square_scal, through_edge_ok].
    intros s x. rewrite expand_ok. cbn [pev]. rewrite flow_u_at, flow_w_at. unfold edge_density. cbn [fst snd px py pz].
    replace (position t (1 - x) x) with (between (P2 t, P3 t) x) by (unfold position, between, vadd, vscale; cbn [fst snd px py pz]; f_equal; ring).
    unfold dot, between, cross, vsub, vadd, vscale. cbn [fst snd px py pz]. ring. }
  unfold tri_edges. cbn [sum]. lra.
Qed.
Lemma through_ok t : over_triangle (fun u w => dot (area2 t) (at_field F (position t u w))) (through t).
Proof.
  assert (H := triangle_monos (expand (flow_s t)) 1). revert H. apply over_triangle_ext. intros u w. rewrite expand_ok.
  assert (E := field_at_ok t (Pt 1 u w)). unfold flow_s, dotp, constv, dot. cbn [pev at_ px].
  assert (T : toward o 1 (position t u w) = position t u w) by (apply Geo.pt_eq; intros []; unfold toward, vadd, vscale; cbn [at_ px py pz]; ring).
  cbn [px py pz] in E. rewrite T in E. rewrite <- E. unfold at_field. cbn [px py pz]. ring.
Qed.
Lemma produced_ok t : over_cone o t (pev (divp F)) (produced t).
Proof.
  pose (l := expand (psub (divp F) (place t))).
  exists (fun s => sum (fun m => fst m * (s ^ fst (fst (snd m)) * at_top (snd m))) l). split.
  - intros s. assert (H := triangle_monos l s). revert H. apply over_triangle_ext. intros u w. unfold l. rewrite expand_ok, psub_ok, place_at. reflexivity.
  - destruct (prism_monos (expand (source t))) as (g & Hg & I). fold (produced t) in I. revert I. apply newton_ext. intros s.
    apply (over_triangle_unique (fun u w => mev (expand (source t)) (Pt s u w)) (fun u w => cone_det o t * s ^ 2 * mev l (Pt s u w))); [|apply Hg|].
    + intros u w. unfold l. rewrite !expand_ok. unfold source. cbn [pev at_ px]. ring.
    + apply over_triangle_scal. apply triangle_monos.
Qed.
Lemma closed_balance l : closed l -> sum through l = sum produced l.
Proof.
  intros C. rewrite (sum_ext through (fun t => produced t + sum through_edge (tri_edges t))) by (intros t _; apply one_triangle).
  rewrite sum_plus, <- sum_flat', closed_sum; [ring | exact C | exact edge_reversed].
Qed.
End OneTriangle.

(** *** The theorem *)
Lemma forall2_map {A B} (R : A -> B -> Prop) f l : (forall a, R a (f a)) -> Forall2 R l (map f l).
Proof. intros H. induction l; constructor; auto. Qed.
Lemma sum_id_map {A} (f : A -> R) l : sum (fun x => x) (map f l) = sum f l.
Proof. induction l as [|a l IH]; cbn [map sum]; [reflexivity | rewrite IH; reflexivity]. Qed.
Lemma divergence_theorem o l Fd d : polynomial (fun p => px (Fd p)) -> polynomial (fun p => py (Fd p)) -> polynomial (fun p => pz (Fd p)) ->
  is_divergence Fd d -> closed l -> exists v, enclosed o l d v /\ outflow l Fd v.
Proof.
  intros (ex & Ex) (ey & Ey) (ez & Ez) Dv C.
  pose (F := fun a => match a with AX => ex | AY => ey | AZ => ez end).
  assert (EF : forall p, Fd p = at_field F p) by (intros p; apply Geo.pt_eq; intros []; cbn [at_ at_field F px py pz]; auto).
  assert (ED : forall p, d p = pev (divp F) p).
  { intros p. destruct (Dv p) as (dx & dy & dz & Hx & Hy & Hz & ->). unfold divp, F. cbn [pev]. f_equal; [f_equal|].
    - refine (uniqueness_limite _ _ _ _ Hx _). apply (lim_ext (fun t => pev ex (put AX t p))); [intros y; symmetry; apply (Ex (Pt y (py p) (pz p)))|].
      assert (G := pd_ok AX ex p (at_ AX p)). rewrite put_same in G. exact G.
    - refine (uniqueness_limite _ _ _ _ Hy _). apply (lim_ext (fun t => pev ey (put AY t p))); [intros y; symmetry; apply (Ey (Pt (px p) y (pz p)))|].
      assert (G := pd_ok AY ey p (at_ AY p)). rewrite put_same in G. exact G.
    - refine (uniqueness_limite _ _ _ _ Hz _). apply (lim_ext (fun t => pev ez (put AZ t p))); [intros y; symmetry; apply (Ez (Pt (px p) (py p) y))|].
      assert (G := pd_ok AZ ez p (at_ AZ p)). rewrite put_same in G. exact G. }
  exists (sum (produced F o) l). split.
  - exists (map (produced F o) l). split; [|rewrite sum_id_map; reflexivity]. apply forall2_map. intros t.
    destruct (produced_ok F o t) as (g & Hg & I). exists g. split; [|exact I]. intros s. specialize (Hg s). revert Hg. apply over_triangle_ext.
    intros u w. symmetry. apply ED.
  - exists (map (through F o) l). split; [|rewrite sum_id_map; symmetry; apply closed_balance; exact C]. apply forall2_map. intros t.
    assert (H := through_ok F o t). revert H. apply over_triangle_ext. intros u w. rewrite EF. reflexivity.
Qed.
Lemma over_cone_unique o t f v w : over_cone o t f v -> over_cone o t f w -> v = w.
Proof.
  intros (g & Hg & Ig) (h & Hh & Ih). apply (newton_unique _ _ 0 1 _ _) with (2 := Ig) (3 := Ih). intros s.
  rewrite (over_triangle_unique _ _ _ _ (fun _ _ => eq_refl) (Hg s) (Hh s)). reflexivity.
Qed.
Lemma enclosed_unique o l f v w : enclosed o l f v -> enclosed o l f w -> v = w.
Proof.
  intros (vs & Hv & ->) (ws & Hw & ->). f_equal. revert ws Hw. induction Hv as [|t x l vs Hx Hv IH]; intros ws Hw; inversion Hw; subst; [reflexivity|].
  f_equal; [eapply over_cone_unique; eassumption | apply IH; assumption].
Qed.
Lemma outflow_unique l F v w : outflow l F v -> outflow l F w -> v = w.
Proof.
  intros (vs & Hv & ->) (ws & Hw & ->). f_equal. revert ws Hw. induction Hv as [|t x l vs Hx Hv IH]; intros ws Hw; inversion Hw; subst; [reflexivity|].
  f_equal; [eapply over_triangle_unique; [reflexivity | |]; eassumption | apply IH; assumption].
Qed.
