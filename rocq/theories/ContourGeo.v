(** The geometry of the split points of a planar contour: an edge and its neighbour of the other orientation are cut at the
    same positions. *)
From Coq Require Import Reals List Arith Bool Permutation Lia Lra Psatz Classical_Prop.
From Verif Require Import Geo MappingModel MeshModel ClipModel GeoQueryModel SatMain DomainModel DomainProps ContourModel ContourProofs ContourFace.
Import ListNotations.
Local Open Scope R_scope.

Notation seg2 := (point2 * point2)%type.
Definition lx (e : seg2) : R := fst (fst e).
Definition rx (e : seg2) : R := fst (snd e).
Definition ht (e : seg2) (x : R) : R := line_at (fst e) (snd e) x.
Definition over (e : seg2) (x : R) : Prop := lx e < x < rx e.
Definition cover (e : seg2) (x : R) : Prop := lx e <= x <= rx e.
Definition end_at (e : seg2) (x : R) : Prop := x = lx e \/ x = rx e.

Lemma ht_left e : ht e (lx e) = snd (fst e).
Proof. unfold ht, line_at, lx. ring. Qed.
Lemma ht_right e : lx e < rx e -> ht e (rx e) = snd (snd e).
Proof. intros H. unfold ht, line_at, lx, rx in *. field. lra. Qed.
Lemma ht_affine e x y k : ht e (x + k * (y - x)) = ht e x + k * (ht e y - ht e x).
Proof. unfold ht, line_at. ring. Qed.
(** A real minimum over a list. *)
Lemma list_min {A} (f : A -> R) (Q : A -> Prop) l : (exists a, In a l /\ Q a) -> exists a, In a l /\ Q a /\ forall b, In b l -> Q b -> f a <= f b.
Proof.
  induction l as [|c l IH]; intros (a & I & H); [destruct I|]. destruct (classic (exists b, In b l /\ Q b)) as [X|X].
  - destruct (IH X) as (b & Ib & Hb & M). destruct (classic (Q c /\ f c <= f b)) as [[Qc L]|N].
    + exists c. split; [left; reflexivity|]. split; [exact Qc|]. intros d [<-|Id] Qd; [lra|]. specialize (M d Id Qd). lra.
    + exists b. split; [right; exact Ib|]. split; [exact Hb|]. intros d [<-|Id] Qd; [|exact (M d Id Qd)]. apply Rnot_lt_le. intros L. apply N. split; [exact Qd|lra].
  - destruct I as [<-|I]; [|destruct X; exists a; auto]. exists c. split; [left; reflexivity|]. split; [exact H|]. intros d [<-|Id] Qd; [lra|]. destruct X. exists d. auto.
Qed.

Section Half.
Variable pl : plane.
Notation tol := (snap pl).
(** The vertices VA of the edges A split the edges B; [up]: those are above. *)
Variable up : bool.
Variables A B : list seg2.
Variables VA VB : list point2.
Definition hg (e : seg2) (x : R) : R := if up then - ht e x else ht e x.
Definition vh (v : point2) : R := if up then - snd v else snd v.
Definition is_abs (x : R) : Prop := exists v, (In v VA \/ In v VB) /\ fst v = x.
Definition either (e : seg2) : Prop := In e A \/ In e B.

Hypothesis order : forall e, either e -> lx e < rx e.
Hypothesis endsA : forall e, In e A -> In (fst e) VA /\ In (snd e) VA.
Hypothesis endsB : forall e, In e B -> In (fst e) VB /\ In (snd e) VB.
Hypothesis usedA : forall v, In v VA -> exists e, In e A /\ (v = fst e \/ v = snd e).
Hypothesis usedB : forall v, In v VB -> exists e, In e B /\ (v = fst e \/ v = snd e).
Hypothesis disjoint : forall e, In e A -> In e B -> False.
Hypothesis apart : forall x y, is_abs x -> is_abs y -> x = y \/ 20 * tol <= Rabs (x - y).
Hypothesis meet : forall e f x, either e -> either f -> e <> f -> cover e x -> cover f x -> ht e x = ht f x -> end_at e x /\ end_at f x.
Hypothesis gap : forall e f x, either e -> either f -> is_abs x -> cover e x -> cover f x -> ht e x = ht f x \/ tol < Rabs (ht e x - ht f x).
Hypothesis alternate : forall f g x, In f B -> either g -> ~ is_abs x -> over f x -> over g x -> hg f x < hg g x ->
  (forall h, either h -> over h x -> ~ (hg f x < hg h x < hg g x)) -> In g A.
Hypothesis small : forall e f x, either e -> either f -> is_abs x -> cover e x -> cover f x -> Rabs (ht e x - ht f x) < 10 ^ 15 - 1.
Hypothesis tol_big : 2 * zerotol < tol.

Lemma zero_pos : 0 < zerotol < 1.
Proof. unfold zerotol. assert (1 < 10 ^ 14) by (apply Rlt_pow_R1; [lra|lia]). split; [apply Rinv_0_lt_compat; lra|]. rewrite <- Rinv_1. apply Rinv_lt_contravar; lra. Qed.
Lemma tol_pos : 0 < tol. Proof. apply snap_pos. Qed.
Lemma lx_abs e : either e -> is_abs (lx e).
Proof. intros [H|H]; [destruct (endsA e H)|destruct (endsB e H)]; exists (fst e); split; auto. Qed.
Lemma rx_abs e : either e -> is_abs (rx e).
Proof. intros [H|H]; [destruct (endsA e H)|destruct (endsB e H)]; exists (snd e); split; auto. Qed.
Lemma end_abs e x : either e -> end_at e x -> is_abs x.
Proof. intros H [-> | ->]; [apply lx_abs|apply rx_abs]; exact H. Qed.
Definition side (s : R) : Prop := s = 1 \/ s = -1.
Lemma side_abs s : side s -> side (- s). Proof. intros [-> | ->]; [right|left]; ring. Qed.
Lemma near_generic x y : is_abs x -> 0 < Rabs (x - y) < 20 * tol -> ~ is_abs y.
Proof. intros H [L1 L2] H'. destruct (apart _ _ H H') as [E|E]; [|lra]. subst. rewrite Rminus_diag_eq, Rabs_R0 in L1 by reflexivity. lra. Qed.
Lemma side_generic x s : is_abs x -> side s -> ~ is_abs (x + s * tol).
Proof. intros H S. apply (near_generic x); [exact H|]. pose proof tol_pos. destruct S as [-> | ->]; unfold Rabs; destruct (Rcase_abs _); lra. Qed.
Lemma far x y : is_abs x -> is_abs y -> x < y -> x + 20 * tol <= y.
Proof. intros H H' L. destruct (apart _ _ H H') as [E|E]; [lra|]. rewrite Rabs_left in E; lra. Qed.
Lemma over_cover e x s : either e -> is_abs x -> side s -> over e (x + s * tol) -> cover e x.
Proof.
  intros H Hx S [L1 L2]. pose proof tol_pos. split; apply Rnot_lt_le; intros L.
  - pose proof (far _ _ Hx (lx_abs e H) L). destruct S as [-> | ->]; lra.
  - pose proof (far _ _ (rx_abs e H) Hx L). destruct S as [-> | ->]; lra.
Qed.
Lemma over_wide e x : either e -> is_abs x -> over e x -> lx e + 20 * tol <= x <= rx e - 20 * tol.
Proof. intros H Hx [L1 L2]. pose proof (far _ _ (lx_abs e H) Hx L1). pose proof (far _ _ Hx (rx_abs e H) L2). lra. Qed.
Lemma over_over e x s : either e -> is_abs x -> side s -> over e x -> over e (x + s * tol).
Proof. intros H Hx S O. pose proof (over_wide e x H Hx O). pose proof tol_pos. unfold over. destruct S as [-> | ->]; lra. Qed.
Lemma cover_cases e x : cover e x -> over e x \/ end_at e x.
Proof. intros [H1 H2]. destruct (Req_dec x (lx e)); [right; left; assumption|]. destruct (Req_dec x (rx e)); [right; right; assumption|]. left. split; lra. Qed.
Lemma over_no_end e x : over e x -> ~ end_at e x.
Proof. intros [H1 H2] [H|H]; lra. Qed.
(** An edge that ends at x is over exactly one side. *)
Lemma end_side e x s : either e -> is_abs x -> side s -> end_at e x -> ~ over e (x + s * tol) -> over e (x + - s * tol).
Proof.
  intros H Hx S E N. pose proof tol_pos. pose proof (far _ _ (lx_abs e H) (rx_abs e H) (order e H)). unfold over in *. destruct E as [-> | ->], S as [-> | ->]; try lra.
Qed.
Lemma end_height e x : either e -> end_at e x -> exists v, (v = fst e \/ v = snd e) /\ fst v = x /\ snd v = ht e x.
Proof.
  intros H [-> | ->]; [exists (fst e)|exists (snd e)]; split; auto; split; try reflexivity; [rewrite ht_left; reflexivity|rewrite ht_right by (apply order; exact H); reflexivity].
Qed.
Lemma vertex_height e v : either e -> v = fst e \/ v = snd e -> ht e (fst v) = snd v /\ end_at e (fst v) /\ cover e (fst v).
Proof.
  intros H E. pose proof (order e H). assert (X : end_at e (fst v)) by (destruct E as [-> | ->]; [left|right]; reflexivity). split; [|split; [exact X|destruct X as [-> | ->]; unfold cover; lra]].
  destruct E as [-> | ->]; [apply ht_left|apply ht_right; assumption].
Qed.
Lemma hg_vh e v : ht e (fst v) = snd v -> vh v = hg e (fst v).
Proof. intros H. unfold hg, vh. rewrite H. reflexivity. Qed.

(** Two edges whose order changes meet. *)
Lemma crossing e f x y : hg e x < hg f x -> hg f y <= hg e y -> exists k, 0 < k <= 1 /\ hg e (x + k * (y - x)) = hg f (x + k * (y - x)).
Proof.
  intros H1 H2. set (a := hg f x - hg e x). set (b := hg e y - hg f y). assert (0 < a) by (unfold a; lra). assert (0 <= b) by (unfold b; lra).
  exists (a / (a + b)). split.
  - split; [apply Rdiv_lt_0_compat; lra|]. apply (Rmult_le_reg_r (a + b)); [lra|]. unfold Rdiv. rewrite Rmult_assoc, Rinv_l by lra. lra.
  - assert (AF : forall g k, hg g (x + k * (y - x)) = hg g x + k * (hg g y - hg g x)) by (intros g k; unfold hg; destruct up; rewrite ht_affine; ring). rewrite !AF.
    replace (hg e y) with (b + hg f y) by (unfold b; ring). replace (hg f x) with (a + hg e x) by (unfold a; ring). field. lra.
Qed.
Lemma hg_eq e f x : hg e x = hg f x <-> ht e x = ht f x.
Proof. unfold hg. destruct up; split; lra. Qed.
Lemma hg_gap e f x : either e -> either f -> is_abs x -> cover e x -> cover f x -> hg e x = hg f x \/ tol < Rabs (hg e x - hg f x).
Proof. intros H1 H2 H3 H4 H5. destruct (gap e f x H1 H2 H3 H4 H5) as [E|E]; [left; apply hg_eq; exact E|right]. unfold hg. destruct up; [|exact E]. replace (- ht e x - - ht f x) with (- (ht e x - ht f x)) by ring. rewrite Rabs_Ropp. exact E. Qed.
Lemma hg_small e f x : either e -> either f -> is_abs x -> cover e x -> cover f x -> hg e x - hg f x < 10 ^ 15 - 1.
Proof. intros H1 H2 H3 H4 H5. pose proof (small e f x H1 H2 H3 H4 H5) as S. unfold Rabs in S. unfold hg. destruct up, (Rcase_abs _) in S; lra. Qed.
Lemma keep_order e f x y : either e -> either f -> e <> f -> cover e x -> cover f x -> cover e y -> cover f y -> hg e x < hg f x ->
  (forall k, 0 < k <= 1 -> end_at e (x + k * (y - x)) -> end_at f (x + k * (y - x)) -> False) -> hg e y < hg f y.
Proof.
  intros H1 H2 N C1 C2 C3 C4 L No. apply Rnot_le_lt. intros G. destruct (crossing e f x y L G) as (k & K & E). apply hg_eq in E.
  assert (C : forall g, cover g x -> cover g y -> cover g (x + k * (y - x))). { intros g [G1 G2] [G3 G4]. unfold cover. split; nra. }
  destruct (meet e f _ H1 H2 N (C e C1 C3) (C f C2 C4) E) as [E1 E2]. exact (No k K E1 E2).
Qed.
Lemma over_cov e x : over e x -> cover e x. Proof. unfold over, cover. lra. Qed.
(** From the position of a vertex to a position beside it. *)
Lemma push e f x s : either e -> either f -> e <> f -> is_abs x -> side s -> over e (x + s * tol) -> over f (x + s * tol) -> hg e x < hg f x -> hg e (x + s * tol) < hg f (x + s * tol).
Proof.
  intros H1 H2 N Hx S O1 O2 L. apply (keep_order e f x); auto; try (apply (over_cover _ _ s); assumption); try (apply over_cov; assumption).
  intros k K E _. apply (near_generic x (x + k * (x + s * tol - x))); [exact Hx| |apply (end_abs e); assumption]. pose proof tol_pos.
  replace (x - (x + k * (x + s * tol - x))) with (- (k * s * tol)) by ring. rewrite Rabs_Ropp. destruct S as [-> | ->]; [rewrite Rabs_pos_eq|rewrite Rabs_left1]; nra.
Qed.
Lemma pull e f x s : either e -> either f -> e <> f -> is_abs x -> side s -> over e (x + s * tol) -> over f (x + s * tol) -> hg e (x + s * tol) < hg f (x + s * tol) -> hg e x <= hg f x.
Proof. intros H1 H2 N Hx S O1 O2 L. apply Rnot_lt_le. intros G. pose proof (push f e x s H2 H1 (not_eq_sym N) Hx S O2 O1 G). lra. Qed.
(** A strict version if one of them is over the position. *)
Lemma pull_strict e f x s : either e -> either f -> e <> f -> is_abs x -> side s -> over e (x + s * tol) -> over f (x + s * tol) -> over e x \/ over f x ->
  hg e (x + s * tol) < hg f (x + s * tol) -> hg e x < hg f x.
Proof.
  intros H1 H2 N Hx S O1 O2 O L. pose proof (pull e f x s H1 H2 N Hx S O1 O2 L) as [G|G]; [exact G|]. apply hg_eq in G.
  destruct (meet e f x H1 H2 N (over_cover e x s H1 Hx S O1) (over_cover f x s H2 Hx S O2) G) as [E1 E2]. destruct O as [O|O]; destruct (over_no_end _ _ O); assumption.
Qed.
Lemma generic_differ e f x : either e -> either f -> e <> f -> ~ is_abs x -> over e x -> over f x -> hg e x <> hg f x.
Proof. intros H1 H2 N G O1 O2 E. apply hg_eq in E. destruct (meet e f x H1 H2 N (over_cov _ _ O1) (over_cov _ _ O2) E) as [E1 _]. exact (over_no_end _ _ O1 E1). Qed.

(** *** Neighbours *)
Definition nbr (e f : seg2) (y : R) : Prop :=
  In e A /\ In f B /\ over e y /\ over f y /\ hg f y < hg e y /\ forall g, either g -> over g y -> ~ (hg f y < hg g y < hg e y).
Definition splitB (f : seg2) (x : R) : Prop := exists u k q, In u VA /\ target pl up A B u = Some (k, q) /\ nth_error B k = Some f /\ fst u = x.
Definition splitA (e : seg2) (x : R) : Prop := exists v k q, In v VB /\ target pl (negb up) B A v = Some (k, q) /\ nth_error A k = Some e /\ fst v = x.
Definition cutA (e : seg2) (x : R) : Prop := end_at e x \/ splitA e x.
Definition cutB (f : seg2) (x : R) : Prop := end_at f x \/ splitB f x.

Lemma dist_hg v e : dist_to up v e = vh v - hg e (fst v).
Proof. unfold dist_to, height, vh, hg, ht. destruct up; ring. Qed.
Lemma dist_hg_opp v e : dist_to (negb up) v e = hg e (fst v) - vh v.
Proof. unfold dist_to, height, vh, hg, ht. destruct up; cbn [negb]; ring. Qed.
Lemma hides_cover (b : bool) e v : either e -> is_abs (fst v) -> hides pl b v e -> cover e (fst v).
Proof.
  intros H Hx [[L1 L2] _]. pose proof tol_pos. split; apply Rnot_lt_le; intros L.
  - pose proof (far _ _ Hx (lx_abs e H) L). unfold lx in *. lra.
  - pose proof (far _ _ (rx_abs e H) Hx L). unfold rx in *. lra.
Qed.

(** A vertex of A between an edge of B and its neighbour splits it. *)
Lemma split_by e f x s u : is_abs x -> side s -> nbr e f (x + s * tol) -> over f x -> In u VA -> fst u = x -> hg f x < vh u <= hg e x -> splitB f x.
Proof.
  intros Hx S (Ie & If & Oe & Of & Lef & Non) Ofx Iu Eu [Lu1 Lu2]. pose proof tol_pos as TP. pose proof zero_pos as ZP.
  assert (He : either e) by (left; exact Ie). assert (Hf : either f) by (right; exact If).
  destruct (list_min vh (fun w => fst w = x /\ hg f x < vh w) VA) as (w & Iw & (Ew & Lw) & Min); [exists u; auto|].
  assert (Lw2 : vh w <= hg e x). { specialize (Min u Iu (conj Eu Lu1)). lra. }
  assert (Btw : forall g, either g -> cover g x -> (In g A \/ over g x) -> hg f x < hg g x -> hg g x < vh w -> False).
  { intros g Hg Cg Or L1 L2. assert (Ngf : f <> g) by (intros ->; lra). assert (Nge : g <> e) by (intros ->; lra).
    destruct (classic (over g (x + s * tol))) as [Og|No].
    - apply (Non g Hg Og). split; [apply push|apply push]; auto; lra.
    - destruct (cover_cases _ _ Cg) as [O|En]; [apply No, over_over; assumption|].
      destruct Or as [Ig|O]; [|exact (over_no_end _ _ O En)]. destruct (end_height g x Hg En) as (v & Ev & Ex & Ey).
      assert (Iv : In v VA) by (destruct (endsA g Ig), Ev as [-> | ->]; assumption).
      assert (E : vh v = hg g x) by (rewrite <- Ex in *; apply hg_vh; symmetry; exact Ey). assert (L3 : hg f x < vh v) by (rewrite E; lra). specialize (Min v Iv (conj Ex L3)). lra. }
  destruct (usedA w Iw) as (a & Ia & Ea). assert (Ha : either a) by (left; exact Ia). destruct (vertex_height a w Ha Ea) as (Ya & Enda & Cova). rewrite Ew in Enda, Cova.
  assert (Naf : a <> f) by (intros ->; exact (disjoint f Ia If)). assert (Wa : vh w = hg a x) by (rewrite <- Ew; apply hg_vh; exact Ya).
  assert (Gf : tol < vh w - hg f x). { destruct (hg_gap a f x Ha Hf Hx Cova (over_cov _ _ Ofx)) as [E|E]; [lra|]. rewrite Wa in *. rewrite Rabs_pos_eq in E; lra. }
  destruct (over_wide f x Hf Hx Ofx) as [W1 W2].
  assert (El : eligible pl up w f). { split; [rewrite Ew; unfold lx, rx in *; lra|]. fold (dist_to up w f). change (tol < dist_to up w f). rewrite dist_hg, Ew. exact Gf. }
  destruct (target_spec pl up A B w) as (fin & S1 & S2 & S3 & R). specialize (S1 f If El). rewrite dist_hg, Ew in S1.
  destruct R as [[T [E|(g & Ig & Hd & E)]]|(j & g & Ej & T & Elg & E & _)].
  - exfalso. pose proof (hg_small a f x Ha Hf Hx Cova (over_cov _ _ Ofx)). rewrite Wa in *. lra.
  - exfalso. assert (Hg : either g) by (left; exact Ig). assert (Cg : cover g x). { rewrite <- Ew in *. apply (hides_cover up g w); assumption. }
    destruct Hd as [_ Hd]. rewrite dist_hg, Ew in Hd, E. assert (Ngf : g <> f) by (intros ->; exact (disjoint f Ig If)).
    destruct (hg_gap g f x Hg Hf Hx Cg (over_cov _ _ Ofx)) as [Eg|Eg].
    + apply hg_eq in Eg. destruct (meet g f x Hg Hf Ngf Cg (over_cov _ _ Ofx) Eg) as [_ X]. exact (over_no_end _ _ Ofx X).
    + apply (Btw g Hg Cg (or_introl Ig)); [|lra]. unfold Rabs in Eg. destruct (Rcase_abs _) in Eg; lra.
  - destruct (classic (g = f)) as [->|Ngf]; [exists w, j, (fst w, line_at (fst f) (snd f) (fst w)); auto|]. exfalso.
    assert (Ig : In g B) by (apply nth_error_In in Ej; exact Ej). assert (Hg : either g) by (right; exact Ig). destruct Elg as [[R1 R2] Hd]. change (tol < dist_to up w g) in Hd. rewrite dist_hg, Ew in Hd, E. rewrite Ew in R1, R2.
    assert (Og : over g x) by (unfold over, lx, rx; lra). destruct (hg_gap g f x Hg Hf Hx (over_cov _ _ Og) (over_cov _ _ Ofx)) as [Eg|Eg].
    + apply hg_eq in Eg. destruct (meet g f x Hg Hf Ngf (over_cov _ _ Og) (over_cov _ _ Ofx) Eg) as [_ X]. exact (over_no_end _ _ Ofx X).
    + apply (Btw g Hg (over_cov _ _ Og) (or_intror Og)); [|lra]. unfold Rabs in Eg. destruct (Rcase_abs _) in Eg; lra.
Qed.

(** A cut of an edge of A is a cut of its neighbour. *)
Lemma cut_through e f x s : is_abs x -> side s -> nbr e f (x + s * tol) -> cutA e x -> cutB f x.
Proof.
  intros Hx S Nb Cut. pose proof Nb as (Ie & If & Oe & Of & Lef & Non). pose proof tol_pos as TP. pose proof zero_pos as ZP.
  assert (He : either e) by (left; exact Ie). assert (Hf : either f) by (right; exact If). assert (Nef : f <> e) by (intros ->; exact (disjoint e Ie If)).
  destruct (cover_cases f x (over_cover f x s Hf Hx S Of)) as [Ofx|E]; [|left; exact E]. right.
  assert (L : hg f x < hg e x) by (apply (pull_strict f e x s); auto).
  destruct Cut as [En|(v & k & q & Iv & T & Ek & Ev)].
  - destruct (end_height e x He En) as (u & Eu & Ux & Uy). assert (Iu : In u VA) by (destruct (endsA e Ie), Eu as [-> | ->]; assumption).
    assert (Hu : vh u = hg e x) by (rewrite <- Ux in *; apply hg_vh; symmetry; exact Uy). apply (split_by e f x s u); auto; lra.
  - destruct (target_spec pl (negb up) B A v) as (fin & S1 & S2 & S3 & [[N _]|(j & g & Ej & T' & El & E & Hid)]); [congruence|].
    rewrite T' in T. injection T as -> _. rewrite Ej in Ek. injection Ek as ->. destruct El as [[R1 R2] D]. change (tol < dist_to (negb up) v e) in D. rewrite dist_hg_opp, Ev in D. rewrite Ev in R1, R2.
    assert (Oex : over e x) by (unfold over, lx, rx; lra).
    destruct (usedB v Iv) as (h & Ih & Eh). assert (Hh : either h) by (right; exact Ih). destruct (vertex_height h v Hh Eh) as (Yh & Endh & Covh). rewrite Ev in Endh, Covh.
    assert (Wh : vh v = hg h x) by (rewrite <- Ev; apply hg_vh; exact Yh). assert (Nhf : h <> f) by (intros ->; exact (over_no_end _ _ Ofx Endh)).
    assert (Nhe : h <> e) by (intros ->; exact (disjoint e Ie Ih)).
    destruct (hg_gap h f x Hh Hf Hx Covh (over_cov _ _ Ofx)) as [G|G].
    { exfalso. apply hg_eq in G. destruct (meet h f x Hh Hf Nhf Covh (over_cov _ _ Ofx) G) as [_ X]. exact (over_no_end _ _ Ofx X). }
    destruct (Rlt_dec (hg h x) (hg f x)) as [Lo|Hi].
    { exfalso. rewrite Rabs_left in G by lra. assert (HF : hides pl (negb up) v f).
      { split; [rewrite Ev; destruct Ofx; unfold lx, rx in *; lra|]. rewrite dist_hg_opp, Ev. lra. }
      specialize (Hid f If HF). rewrite E, !dist_hg_opp, Ev in Hid. lra. }
    assert (Lhf : hg f x < hg h x). { unfold Rabs in G. destruct (Rcase_abs _) in G; lra. } assert (Lhe : hg h x < hg e x) by lra.
    destruct (classic (over h (x + s * tol))) as [Oh|Nh].
    { exfalso. apply (Non h Hh Oh). split; apply push; auto. }
    pose proof (end_side h x s Hh Hx S Endh Nh) as Oh. pose proof (side_abs s S) as S'. set (y := x + - s * tol) in *.
    pose proof (over_over e x (- s) He Hx S' Oex) as Oey. pose proof (over_over f x (- s) Hf Hx S' Ofx) as Ofy. fold y in Oey, Ofy.
    pose proof (push f h x (- s) Hf Hh (not_eq_sym Nhf) Hx S' Ofy Oh Lhf) as P1. pose proof (push h e x (- s) Hh He Nhe Hx S' Oh Oey Lhe) as P2. fold y in P1, P2.
    destruct (list_min (fun g => hg g y) (fun g => over g y /\ hg f y < hg g y) (A ++ B)) as (g & Ig & (Og & Lg) & Min).
    { exists h. split; [apply in_or_app; right; exact Ih|]. split; assumption. }
    assert (Hg : either g) by (apply in_app_or in Ig; exact Ig).
    assert (Gy : ~ is_abs y) by (apply side_generic; assumption).
    assert (IgA : In g A). { apply (alternate f g y); auto. intros h' Hh' Oh' [L1 L2]. assert (I' : In h' (A ++ B)) by (apply in_or_app; exact Hh'). specialize (Min h' I' (conj Oh' L1)). lra. }
    assert (Ngh : g <> h) by (intros ->; exact (disjoint h IgA Ih)). assert (Ngf : f <> g) by (intros ->; exact (disjoint g IgA If)).
    assert (Lgh : hg g y < hg h y). { assert (X : In h (A ++ B)) by (apply in_or_app; right; exact Ih). specialize (Min h X (conj Oh P1)). cbn beta in Min. pose proof (generic_differ g h y Hg Hh Ngh Gy Og Oh). lra. }
    pose proof (pull g h x (- s) Hg Hh Ngh Hx S' Og Oh Lgh) as Q1. pose proof (pull_strict f g x (- s) Hf Hg Ngf Hx S' Ofy Og (or_introl Ofx) Lg) as Q2.
    assert (Nge : g <> e) by (intros ->; lra).
    destruct (classic (over g (x + s * tol))) as [Ogs|Ngs].
    { exfalso. apply (Non g Hg Ogs). split; apply push; auto; lra. }
    assert (Eg : end_at g x). { destruct (cover_cases g x (over_cover g x (- s) Hg Hx S' Og)) as [O|En]; [|exact En]. destruct (Ngs (over_over g x s Hg Hx S O)). }
    destruct (end_height g x Hg Eg) as (u & Eu & Ux & Uy). assert (Iu : In u VA) by (destruct (endsA g IgA), Eu as [-> | ->]; assumption).
    assert (Hu : vh u = hg g x) by (rewrite <- Ux in *; apply hg_vh; symmetry; exact Uy). apply (split_by e f x s u); auto; lra.
Qed.
(** A start of an edge between two neighbours. *)
Lemma start_between e f g x s : is_abs x -> side s -> nbr e f (x + s * tol) -> over e x -> over f x -> In g A -> over g (x + - s * tol) ->
  hg f (x + - s * tol) < hg g (x + - s * tol) < hg e (x + - s * tol) -> splitB f x.
Proof.
  intros Hx S Nb Oex Ofx Ig Og [L1 L2]. pose proof Nb as (Ie & If & Oe & Of & Lef & Non).
  assert (He : either e) by (left; exact Ie). assert (Hf : either f) by (right; exact If). assert (Hg : either g) by (left; exact Ig).
  assert (Nge : g <> e) by (intros ->; lra). assert (Ngf : f <> g) by (intros ->; lra). pose proof (side_abs s S) as S'.
  pose proof (over_over e x (- s) He Hx S' Oex) as Oey. pose proof (over_over f x (- s) Hf Hx S' Ofx) as Ofy.
  pose proof (pull_strict f g x (- s) Hf Hg Ngf Hx S' Ofy Og (or_introl Ofx) L1) as Q1. pose proof (pull_strict g e x (- s) Hg He Nge Hx S' Og Oey (or_intror Oex) L2) as Q2.
  destruct (classic (over g (x + s * tol))) as [Ogs|Ngs].
  { exfalso. apply (Non g Hg Ogs). split; apply push; auto. }
  assert (Eg : end_at g x). { destruct (cover_cases g x (over_cover g x (- s) Hg Hx S' Og)) as [O|En]; [|exact En]. destruct (Ngs (over_over g x s Hg Hx S O)). }
  destruct (end_height g x Hg Eg) as (u & Eu & Ux & Uy). assert (Iu : In u VA) by (destruct (endsA g Ig), Eu as [-> | ->]; assumption).
  assert (Hu : vh u = hg g x) by (rewrite <- Ux in *; apply hg_vh; symmetry; exact Uy). apply (split_by e f x s u); auto; lra.
Qed.
(** A position of a split: over the edge. *)
Lemma splitB_over f x : splitB f x -> In f B /\ over f x /\ is_abs x.
Proof.
  intros (u & k & q & Iu & T & Ek & Ex). pose proof tol_pos. destruct (target_spec pl up A B u) as (fin & _ & _ & _ & [[N _]|(j & g & Ej & T' & [[R1 R2] _] & _)]); [congruence|].
  rewrite T' in T. injection T as -> _. rewrite Ej in Ek. injection Ek as ->. split; [apply nth_error_In in Ej; exact Ej|]. split; [unfold over, lx, rx; rewrite <- Ex; lra|exists u; auto].
Qed.
(** Two vertices at the same position do not split the same edge. *)
Lemma split_once u u' k q q' : NoDup VA -> In u VA -> In u' VA -> fst u = fst u' -> target pl up A B u = Some (k, q) -> target pl up A B u' = Some (k, q') -> u = u'.
Proof.
  intros _ Iu Iu' Ex T T'. assert (Hx : is_abs (fst u)) by (exists u; auto). pose proof tol_pos. pose proof zero_pos.
  assert (W : forall u u', In u VA -> In u' VA -> is_abs (fst u) -> fst u = fst u' -> vh u' < vh u -> forall k q q', target pl up A B u = Some (k, q) -> target pl up A B u' = Some (k, q') -> False).
  { clear u u' k q q' Iu Iu' Ex T T' Hx. intros u u' Iu Iu' Hx Ex L k q q' T T'.
    destruct (target_spec pl up A B u) as (fin & _ & _ & _ & [[N _]|(j & g & Ej & T1 & El & E & Hid)]); [congruence|].
    destruct (target_spec pl up A B u') as (fin' & _ & _ & _ & [[N' _]|(j' & g' & Ej' & T1' & El' & E' & Hid')]); [congruence|].
    rewrite T1 in T. injection T as -> _. rewrite T1' in T'. injection T' as -> _. rewrite Ej in Ej'. injection Ej' as <-.
    destruct (usedA u' Iu') as (a & Ia & Ea). destruct (usedA u Iu) as (a0 & Ia0 & Ea0). assert (Ha : either a) by (left; exact Ia). assert (Ha0 : either a0) by (left; exact Ia0).
    destruct (vertex_height a u' Ha Ea) as (Ya & Enda & Cova). destruct (vertex_height a0 u Ha0 Ea0) as (Ya0 & Enda0 & Cova0). rewrite <- Ex in Enda, Cova.
    assert (Wa : vh u' = hg a (fst u)) by (rewrite Ex; apply hg_vh; exact Ya). pose proof (hg_vh a0 u Ya0) as Wa0.
    destruct (hg_gap a0 a (fst u) Ha0 Ha Hx Cova0 Cova) as [G|G]; [lra|]. rewrite Rabs_pos_eq in G by lra.
    assert (HD : hides pl up u a). { destruct Cova. split; [unfold lx, rx in *; lra|]. rewrite dist_hg. lra. }
    specialize (Hid a Ia HD). rewrite E, !dist_hg in Hid. destruct El' as [_ D']. change (tol < dist_to up u' g) in D'. rewrite dist_hg, <- Ex in D'. lra. }
  destruct (Rtotal_order (vh u) (vh u')) as [L|[L|L]].
  - exfalso. apply (W u' u Iu' Iu) with (k := k) (q := q') (q' := q); auto. rewrite <- Ex. exact Hx.
  - destruct u as [a b], u' as [c d]. cbn [fst] in Ex. unfold vh in L. cbn [snd] in L. f_equal; [exact Ex|]. destruct up; lra.
  - exfalso. apply (W u u' Iu Iu' Hx Ex L k q q' T T').
Qed.
End Half.

Lemma filter_less {A} (p q : A -> bool) l : (forall a, p a = true -> q a = true) -> (exists a, In a l /\ q a = true /\ p a = false) -> (length (List.filter p l) < length (List.filter q l))%nat.
Proof.
  intros H. assert (Le : forall l, (length (List.filter p l) <= length (List.filter q l))%nat).
  { clear l. intros l. induction l as [|a l IH]; [apply le_n|]. cbn. destruct (p a) eqn:E; [rewrite (H a E); cbn; lia|]. destruct (q a); cbn; lia. }
  induction l as [|a l IH]; intros (b & I & Q & P); [destruct I|]. cbn. destruct I as [->|I].
  - rewrite Q, P. cbn. specialize (Le l). lia.
  - specialize (IH (ex_intro _ b (conj I (conj Q P)))). destruct (p a) eqn:E; [rewrite (H a E); cbn; lia|]. destruct (q a); cbn; lia.
Qed.

(** A contour in general position, in terms of the edges P and N with positive and negative normals and of their vertices. *)
Record general (pl : plane) (P N : list seg2) (VP VN : list point2) : Prop := {
  (* the edges run from left to right, and the vertices are their ends *)
  g_order : forall e, In e P \/ In e N -> lx e < rx e;
  g_endsP : forall e, In e P -> In (fst e) VP /\ In (snd e) VP;
  g_endsN : forall e, In e N -> In (fst e) VN /\ In (snd e) VN;
  g_usedP : forall v, In v VP -> exists e, In e P /\ (v = fst e \/ v = snd e);
  g_usedN : forall v, In v VN -> exists e, In e N /\ (v = fst e \/ v = snd e);
  g_nodup : NoDup (P ++ N);
  g_vertsP : NoDup VP;
  g_vertsN : NoDup VN;
  (* vertices are above each other or separated *)
  g_apart : forall v w, In v (VP ++ VN) -> In w (VP ++ VN) -> fst v = fst w \/ 20 * snap pl <= Rabs (fst v - fst w);
  (* edges meet in common ends only, and are separated at other vertices *)
  g_meet : forall e f x, In e P \/ In e N -> In f P \/ In f N -> e <> f -> cover e x -> cover f x -> ht e x = ht f x -> end_at e x /\ end_at f x;
  g_gap : forall e f v, In e P \/ In e N -> In f P \/ In f N -> In v (VP ++ VN) -> cover e (fst v) -> cover f (fst v) -> ht e (fst v) = ht f (fst v) \/ snap pl < Rabs (ht e (fst v) - ht f (fst v));
  (* the domain is below the positive and above the negative edges *)
  g_altP : forall e g x, In e P -> In g P \/ In g N -> (forall v, In v (VP ++ VN) -> fst v <> x) -> over e x -> over g x -> ht g x < ht e x ->
    (forall h, In h P \/ In h N -> over h x -> ~ (ht g x < ht h x < ht e x)) -> In g N;
  g_altN : forall f g x, In f N -> In g P \/ In g N -> (forall v, In v (VP ++ VN) -> fst v <> x) -> over f x -> over g x -> ht f x < ht g x ->
    (forall h, In h P \/ In h N -> over h x -> ~ (ht f x < ht h x < ht g x)) -> In g P;
  g_top : forall f x, In f N -> (forall v, In v (VP ++ VN) -> fst v <> x) -> over f x -> exists g, (In g P \/ In g N) /\ over g x /\ ht f x < ht g x;
  (* sizes *)
  g_small : forall e f v, In e P \/ In e N -> In f P \/ In f N -> In v (VP ++ VN) -> cover e (fst v) -> cover f (fst v) -> Rabs (ht e (fst v) - ht f (fst v)) < 10 ^ 15 - 1;
  g_tol : 2 * zerotol < snap pl }.

Section Full.
Variable pl : plane.
Variables P N : list seg2.
Variables VP VN : list point2.
Hypothesis G : general pl P N VP VN.
Notation tol := (snap pl).
Definition absc (x : R) : Prop := is_abs VP VN x.
Definition below (e f : seg2) (y : R) : Prop := nbr false P N e f y.
Definition cutP (e : seg2) (x : R) : Prop := cutB pl true N P VN e x.
Definition cutN (f : seg2) (x : R) : Prop := cutB pl false P N VP f x.

Lemma absc_in x : absc x <-> exists v, In v (VP ++ VN) /\ fst v = x.
Proof. unfold absc, is_abs. split; intros (v & I & E); exists v; (split; [|exact E]); [apply in_or_app; exact I|apply in_app_or; exact I]. Qed.
Lemma absc_sym x : is_abs VN VP x <-> absc x.
Proof. unfold absc, is_abs. split; intros (v & I & E); exists v; tauto. Qed.
Lemma not_absc x : ~ absc x -> forall v, In v (VP ++ VN) -> fst v <> x.
Proof. intros H v I E. apply H. apply absc_in. exists v; auto. Qed.
Lemma disjointPN e : In e P -> In e N -> False.
Proof.
  intros H1 H2. pose proof (g_nodup _ _ _ _ _ G) as D. revert H1 D. clear G. induction P as [|a l IH]; [intros []|]. intros [->|I] D; inversion D as [|? ? N1 N2]; [apply N1; apply in_or_app; right; exact H2|apply IH; assumption].
Qed.
Lemma swap (Q : seg2 -> Prop) e : (In e N \/ In e P) -> ((In e P \/ In e N) -> Q e) -> Q e.
Proof. tauto. Qed.
Lemma below_sym e f y : below e f y <-> nbr true N P f e y.
Proof.
  unfold below, nbr, hg, either. split; intros (H1 & H2 & H3 & H4 & H5 & H6); (split; [assumption|]); (split; [assumption|]); (split; [assumption|]); (split; [assumption|]); (split; [lra|]); intros g Hg Og L; apply (H6 g); try tauto; lra.
Qed.
Lemma apartP x y : is_abs VP VN x -> is_abs VP VN y -> x = y \/ 20 * tol <= Rabs (x - y).
Proof. intros Hx Hy. apply absc_in in Hx, Hy. destruct Hx as (v & Iv & <-), Hy as (w & Iw & <-). apply (g_apart _ _ _ _ _ G); assumption. Qed.
Lemma gapP e f x : either P N e -> either P N f -> is_abs VP VN x -> cover e x -> cover f x -> ht e x = ht f x \/ tol < Rabs (ht e x - ht f x).
Proof. intros He Hf Hx. apply absc_in in Hx. destruct Hx as (v & Iv & <-). apply (g_gap _ _ _ _ _ G); assumption. Qed.
Lemma smallP e f x : either P N e -> either P N f -> is_abs VP VN x -> cover e x -> cover f x -> Rabs (ht e x - ht f x) < 10 ^ 15 - 1.
Proof. intros He Hf Hx. apply absc_in in Hx. destruct Hx as (v & Iv & <-). apply (g_small _ _ _ _ _ G); assumption. Qed.
Lemma altN f g x : In f N -> either P N g -> ~ is_abs VP VN x -> over f x -> over g x -> hg false f x < hg false g x ->
  (forall h, either P N h -> over h x -> ~ (hg false f x < hg false h x < hg false g x)) -> In g P.
Proof. intros If Hg Nx Of Og L Non. exact (g_altN _ _ _ _ _ G f g x If Hg (not_absc x Nx) Of Og L Non). Qed.
Lemma altP f g x : In f P -> either N P g -> ~ is_abs VN VP x -> over f x -> over g x -> hg true f x < hg true g x ->
  (forall h, either N P h -> over h x -> ~ (hg true f x < hg true h x < hg true g x)) -> In g N.
Proof.
  intros If Hg Nx Of Og L Non. rewrite absc_sym in Nx. unfold hg in L. apply (g_altP _ _ _ _ _ G f g x If); auto; [unfold either in Hg; tauto|apply not_absc; exact Nx|lra|].
  intros h Hh Oh [L1 L2]. apply (Non h); [unfold either; tauto|exact Oh|unfold hg; lra].
Qed.
Lemma orderP e : either P N e -> lx e < rx e. Proof. apply (g_order _ _ _ _ _ G). Qed.
Lemma orderN e : either N P e -> lx e < rx e. Proof. intros H. apply (g_order _ _ _ _ _ G). unfold either in H. tauto. Qed.
Lemma apartN x y : is_abs VN VP x -> is_abs VN VP y -> x = y \/ 20 * tol <= Rabs (x - y).
Proof. rewrite !absc_sym. apply apartP. Qed.
Lemma meetP e f x : either P N e -> either P N f -> e <> f -> cover e x -> cover f x -> ht e x = ht f x -> end_at e x /\ end_at f x.
Proof. apply (g_meet _ _ _ _ _ G). Qed.
Lemma meetN e f x : either N P e -> either N P f -> e <> f -> cover e x -> cover f x -> ht e x = ht f x -> end_at e x /\ end_at f x.
Proof. intros H1 H2. apply (g_meet _ _ _ _ _ G); unfold either in *; tauto. Qed.
Lemma gapN e f x : either N P e -> either N P f -> is_abs VN VP x -> cover e x -> cover f x -> ht e x = ht f x \/ tol < Rabs (ht e x - ht f x).
Proof. intros H1 H2. rewrite absc_sym. apply gapP; unfold either in *; tauto. Qed.
Lemma smallN e f x : either N P e -> either N P f -> is_abs VN VP x -> cover e x -> cover f x -> Rabs (ht e x - ht f x) < 10 ^ 15 - 1.
Proof. intros H1 H2. rewrite absc_sym. apply smallP; unfold either in *; tauto. Qed.
Lemma disjointNP e : In e N -> In e P -> False. Proof. intros H1 H2. exact (disjointPN e H2 H1). Qed.

Lemma both_cut e f x s : absc x -> side s -> below e f (x + s * tol) -> (cutP e x <-> cutN f x).
Proof.
  intros Hx S B. destruct G as [G1 G2 G3 G4 G5 G6 G7 G8 G9 G10 G11 G12 G13 G14 G15 G16]. split; intros C.
  - apply (cut_through pl false P N VP VN orderP G2 G3 G4 G5 disjointPN apartP meetP gapP altN smallP G16 e f x s Hx S B). destruct C as [C|C]; [left; exact C|right; exact C].
  - apply below_sym in B. apply absc_sym in Hx.
    apply (cut_through pl true N P VN VP orderN G3 G2 G5 G4 disjointNP apartN meetN gapN altP smallN G16 f e x s Hx S B). destruct C as [C|C]; [left; exact C|right; exact C].
Qed.
Lemma cut_absP e x : In e P -> cutP e x -> absc x.
Proof.
  intros I [E|S]; [apply (end_abs P N VP VN (g_endsP _ _ _ _ _ G) (g_endsN _ _ _ _ _ G) e x (or_introl I) E)|].
  apply absc_sym. apply (splitB_over pl true N P VN VP e x S).
Qed.
Lemma persist e f x s : absc x -> side s -> below e f (x + s * tol) -> ~ cutP e x -> below e f (x + - s * tol).
Proof.
  intros Hx S B NC. assert (NC' : ~ cutN f x) by (rewrite <- (both_cut e f x s Hx S B); exact NC).
  pose proof B as (Ie & If & Oe & Of & L & Non). assert (He : either P N e) by (left; exact Ie). assert (Hf : either P N f) by (right; exact If).
  pose proof (g_endsP _ _ _ _ _ G) as G2. pose proof (g_endsN _ _ _ _ _ G) as G3.
  destruct (cover_cases e x (over_cover pl P N VP VN G2 G3 apartP e x s He Hx S Oe)) as [Oex|E]; [|destruct NC; left; exact E].
  destruct (cover_cases f x (over_cover pl P N VP VN G2 G3 apartP f x s Hf Hx S Of)) as [Ofx|E]; [|destruct NC'; left; exact E].
  pose proof (side_abs s S) as S'. pose proof (over_over pl P N VP VN G2 G3 apartP e x (- s) He Hx S' Oex) as Oey. pose proof (over_over pl P N VP VN G2 G3 apartP f x (- s) Hf Hx S' Ofx) as Ofy.
  assert (Nef : f <> e) by (intros ->; exact (disjointPN e Ie If)).
  split; [exact Ie|]. split; [exact If|]. split; [exact Oey|]. split; [exact Ofy|]. split.
  - apply (push pl false P N VP VN G2 G3 apartP meetP); auto. apply (pull_strict pl false P N VP VN G2 G3 apartP meetP f e x s); auto.
  - intros g [Ig|Ig] Og Lg.
    + apply NC'. right. apply (start_between pl false P N VP VN (g_order _ _ _ _ _ G) G2 G3 (g_usedP _ _ _ _ _ G) disjointPN apartP meetP gapP smallP (g_tol _ _ _ _ _ G) e f g x s Hx S B Oex Ofx Ig Og Lg).
    + apply NC. right. apply below_sym in B. apply absc_sym in Hx. assert (Lg' : hg true e (x + - s * tol) < hg true g (x + - s * tol) < hg true f (x + - s * tol)) by (unfold hg in *; lra).
      apply (start_between pl true N P VN VP orderN G3 G2 (g_usedN _ _ _ _ _ G) disjointNP apartN meetN gapN smallN (g_tol _ _ _ _ _ G) f e g x s Hx S B Ofx Oex Ig Og Lg').
Qed.
Lemma transport e f y1 y2 : (forall z, absc z -> Rmin y1 y2 <= z <= Rmax y1 y2 -> False) -> below e f y1 -> below e f y2.
Proof.
  intros Gen (Ie & If & Oe & Of & L & Non). assert (He : either P N e) by (left; exact Ie). assert (Hf : either P N f) by (right; exact If).
  pose proof (g_endsP _ _ _ _ _ G) as G2. pose proof (g_endsN _ _ _ _ _ G) as G3.
  assert (Ov : forall a b g, Rmin a b = Rmin y1 y2 -> Rmax a b = Rmax y1 y2 -> either P N g -> over g a -> over g b).
  { intros a b g E1 E2 Hg [O1 O2]. pose proof (Gen _ (lx_abs P N VP VN G2 G3 g Hg)) as N1. pose proof (Gen _ (rx_abs P N VP VN G2 G3 g Hg)) as N2. rewrite <- E1, <- E2 in N1, N2. unfold over, Rmin, Rmax in *. destruct (Rle_dec a b); split; apply Rnot_le_lt; intros X; (apply N1; lra) || (apply N2; lra). }
  assert (Or : forall a b g h, Rmin a b = Rmin y1 y2 -> Rmax a b = Rmax y1 y2 -> either P N g -> either P N h -> over g a -> over h a -> hg false g a < hg false h a -> hg false g b < hg false h b).
  { intros a b g h E1 E2 Hg Hh Og Oh Lg. assert (Ngh : g <> h) by (intros ->; lra). apply (keep_order false P N meetP g h a b); auto; try (apply over_cov; assumption); try (apply over_cov; apply (Ov a b); assumption).
    intros k K En _. apply (Gen (a + k * (b - a))); [apply (end_abs P N VP VN G2 G3 g); assumption|]. rewrite <- E1, <- E2. unfold Rmin, Rmax. destruct (Rle_dec a b); split; nra. }
  split; [exact Ie|]. split; [exact If|]. split; [apply (Ov y1 y2); auto|]. split; [apply (Ov y1 y2); auto|]. split; [apply (Or y1 y2); auto|].
  intros g Hg Og [L1 L2]. assert (E1 : Rmin y2 y1 = Rmin y1 y2) by apply Rmin_comm. assert (E2 : Rmax y2 y1 = Rmax y1 y2) by apply Rmax_comm.
  apply (Non g Hg (Ov y2 y1 g E1 E2 Hg Og)). split; apply (Or y2 y1); auto; apply (Ov y1 y2); auto.
Qed.

(** Neighbours stay neighbours up to the next cut. *)
Lemma run_through e f x0 x1 : absc x0 -> below e f (x0 + 1 * tol) -> (forall x, absc x -> x0 < x < x1 -> below e f (x + -1 * tol) -> ~ cutP e x) ->
  forall x, absc x -> x0 < x <= x1 -> below e f (x + -1 * tol).
Proof.
  intros H0 B0 NC. set (X := map fst (VP ++ VN)). pose proof (snap_pos pl) as TP.
  assert (AX : forall z, absc z <-> In z X). { intros z. rewrite absc_in. unfold X. rewrite in_map_iff. split; intros (v & H1 & H2); exists v; auto. }
  assert (Ind : forall n x, absc x -> x0 < x <= x1 -> (length (List.filter (fun z => rltb x0 z && rltb z x) X) < n)%nat -> below e f (x + -1 * tol)).
  { induction n as [|n IH]; intros x Hx Lx Len; [lia|].
    destruct (list_min (fun z => - z) (fun z => x0 <= z < x) X) as (z & Iz & Lz & Max); [exists x0; split; [apply AX; exact H0|lra]|]. assert (Hz : absc z) by (apply AX; exact Iz).
    assert (Bz : below e f (z + 1 * tol)).
    { destruct (Req_dec z x0) as [->|Nz]; [exact B0|]. assert (B' : below e f (z + -1 * tol)).
      { apply IH; [exact Hz|lra|]. apply Nat.lt_le_trans with (length (List.filter (fun z => rltb x0 z && rltb z x) X)); [|lia]. apply filter_less.
        - intros a. rewrite !andb_true_iff, !rltb_true. lra.
        - exists z. split; [exact Iz|]. rewrite andb_true_iff, andb_false_iff, !rltb_true, rltb_false. split; [lra|]. right. apply rltb_false. lra. }
      replace (z + 1 * tol) with (z + - -1 * tol) by ring. apply persist; [exact Hz|right; reflexivity|exact B'|]. apply NC; [exact Hz|lra|exact B']. }
    apply (transport e f (z + 1 * tol)); [|exact Bz]. assert (F : z + 20 * tol <= x) by (apply (far pl VP VN apartP); auto; lra).
    intros a Ha. rewrite Rmin_left, Rmax_right by lra. intros La. assert (Ia : In a X) by (apply AX; exact Ha). specialize (Max a Ia ltac:(lra)). cbn beta in Max. lra. }
  intros x Hx Lx. apply (Ind (S (length (List.filter (fun z => rltb x0 z && rltb z x) X))) x Hx Lx). lia.
Qed.
End Full.
