(** Lemmas behind the properties C21-C24 on the level of the built element. *)
From Coq Require Import Arith NArith Reals List Bool Lra Lia Permutation.
From Verif Require Import Geo GridStoreModel GgqModel GgqProofs Ggq1dModel GaussModel GaussProofs GaussProps MappingModel MappingProps PolyModel PolyProps
  OctreeModel OctreeSpec OctreeProofs OctreeProps TrimmedQuadModel TrimmedQuadProofs TrimmedQuadAssemble.
Import ListNotations.
Local Open Scope R_scope.

(** ** specification vocabulary *)
(** number of moments *)
Definition moments_of (o : nat * nat * nat) : nat := let '(p, q, r) := o in ((p + 1) * (q + 1) * (r + 1))%nat.
(** what std::sort guarantees whatever the comparison does *)
Definition permutes (sort : list ipoint -> list ipoint) : Prop := forall l, Permutation (sort l) l.
(** tensor products of Legendre polynomials on a box and the index set of the moments *)
Definition phi (B : box) (i j k : nat) (p : pt) : R :=
  legendre i (local (px (lower B)) (px (upper B)) (px p)) * legendre j (local (py (lower B)) (py (upper B)) (py p)) * legendre k (local (pz (lower B)) (pz (upper B)) (pz p)).
Definition moment_index (o : nat * nat * nat) (i j k : nat) : Prop := let '(p, q, r) := o in (i <= p /\ j <= q /\ k <= r)%nat.

Lemma rows_in o i j k : In (i, j, k) (rows o) <-> moment_index o i j k.
Proof.
  destruct o as ((p & q) & r). unfold rows, moment_index. rewrite in_flat_map. split.
  - intros (i' & Hi & H). rewrite in_flat_map in H. destruct H as (j' & Hj & H). apply in_map_iff in H. destruct H as (k' & E & Hk). injection E as -> -> ->.
    apply in_seq in Hi, Hj, Hk. lia.
  - intros (Hi & Hj & Hk). exists i. split; [apply in_seq; lia|]. apply in_flat_map. exists j. split; [apply in_seq; lia|]. apply in_map_iff. exists k. split; [reflexivity|apply in_seq; lia].
Qed.
Lemma phi_shape o B i j k p : (let '(a, b, c) := o in a <= 8 /\ b <= 8 /\ c <= 8)%nat -> moment_index o i j k -> shape B (i, j, k) p = phi B i j k p.
Proof.
  destruct o as ((a & b) & c). unfold moment_index. intros H1 H2. unfold shape, phi, local. rewrite !is_legendre by lia. reflexivity.
Qed.

(** ** the domain in parametric space *)
Lemma active_ok cb X : bounds_ok cb -> box_ok X -> box_ok (active_param cb X).
Proof.
  intros Hb HX a. pose proof Hb as (Hg & Hp). unfold active_param. cbn [lower upper]. rewrite !to_parametric_at by assumption.
  pose proof (side_pos _ a Hp) as H1. pose proof (side_pos _ a Hg) as H2. specialize (HX a).
  assert (S : 0 < side (eb_param cb) a / side (eb_global cb) a) by (apply Rdiv_lt_0_compat; assumption).
  apply Rplus_lt_compat_r, Rmult_lt_compat_r; [assumption|lra].
Qed.
Lemma active_global cb X p : bounds_ok cb -> box_ok X -> to_global p (EB X (active_param cb X)) = to_global p cb.
Proof.
  intros Hb HX. pose proof (active_ok cb X Hb HX) as HA. apply pt_eq. intros a. pose proof Hb as (Hg & Hp).
  rewrite (to_global_at p cb a Hb), (to_global_at p (EB X (active_param cb X)) a (conj HX HA)). cbn [eb_global eb_param]. unfold side, active_param. cbn [lower upper].
  rewrite !to_parametric_at by assumption. unfold side. specialize (HX a). specialize (Hg a). specialize (Hp a).
  set (l := at_ a (lower (eb_param cb))) in *. set (u := at_ a (upper (eb_param cb))) in *. set (L := at_ a (lower (eb_global cb))) in *. set (V := at_ a (upper (eb_global cb))) in *.
  set (x := at_ a (lower X)) in *. set (y := at_ a (upper X)) in *. clearbody l u L V x y. set (s := (u - l) / (V - L)).
  assert (Hs : 0 < s) by (apply Rdiv_lt_0_compat; lra).
  replace ((V - L) / (u - l)) with (/ s) by (unfold s; field; lra).
  replace ((y - L) * s + l - ((x - L) * s + l)) with ((y - x) * s) by ring. field. lra.
Qed.
Lemma open_mapped b p : bounds_ok b -> in_open (eb_param b) p -> in_open (eb_global b) (to_global p b).
Proof.
  intros Hb H a. rewrite to_global_at by assumption. destruct Hb as (Hg & Hp). specialize (H a). specialize (Hg a). specialize (Hp a). unfold side.
  set (l := at_ a (lower (eb_param b))) in *. set (u := at_ a (upper (eb_param b))) in *. set (x := at_ a p) in *.
  set (L := at_ a (lower (eb_global b))) in *. set (V := at_ a (upper (eb_global b))) in *. clearbody l u x L V.
  assert (E1 : 0 < (x - l) * ((V - L) / (u - l))) by (apply Rmult_lt_0_compat; [lra|apply Rdiv_lt_0_compat; lra]).
  assert (E2 : 0 < (u - x) * ((V - L) / (u - l))) by (apply Rmult_lt_0_compat; [lra|apply Rdiv_lt_0_compat; lra]).
  assert (E3 : (x - l) * ((V - L) / (u - l)) + (u - x) * ((V - L) / (u - l)) = V - L) by (field; lra). lra.
Qed.
Lemma active_open cb X p : bounds_ok cb -> box_ok X -> in_open (active_param cb X) p -> in_open X (to_global p cb).
Proof.
  intros Hb HX H. rewrite <- (active_global cb X p Hb HX). apply (open_mapped (EB X (active_param cb X))); [|assumption]. split; [assumption|apply active_ok; assumption].
Qed.

(** a point that belongs to the domain: the point test accepts it, or it lies in a dyadic box of the bounding box of the
    domain that was classified as inside *)
Definition of_domain (inside : pt -> bool) (state : box -> istate) (X : box) (x : pt) : Prop :=
  in_open X x /\ (inside x = true \/ exists c, cell_ok c /\ (0 < c_k c)%nat /\ state (dyadic X c) = Inside /\ in_open (dyadic X c) x).

Lemma root_trimmed state X U : forall h t, refinements state h (octree_new X U) = Some t -> n_status (o_root t) = Trimmed.
Proof.
  assert (G : forall h t t', refinements state h t = Some t' -> n_status (o_root t') = n_status (o_root t)).
  { induction h as [|(mn & mx) h IH]; intros t t' H; simpl in H; [congruence|]. unfold octree_refine in H. destruct (mx <? mn)%nat; [discriminate|].
    apply IH in H. rewrite H. apply status_refine. }
  intros h t H. rewrite (G _ _ _ H). reflexivity.
Qed.
Lemma inside_leaf state X U h t l : box_ok X -> refinements state h (octree_new X U) = Some t -> In l (leaves (o_root t)) -> n_status l = Inside ->
  exists c, cell_ok c /\ (0 < c_k c)%nat /\ state (dyadic X c) = Inside /\ n_xyz l = dyadic X c /\ n_uvw l = dyadic U c.
Proof.
  intros HX HR Hl Hs. pose proof (refinements_wf state X U h _ _ (new_wf state X U) HR) as W.
  destruct (leaves_at _ root_cell l Hl) as (c & L). destruct (leaf_wf _ _ _ _ _ _ _ L W) as (F & _). apply wf_fields in F. destruct F as (F1 & F2 & _).
  destruct (leaf_cell_ok _ _ _ _ L root_ok) as (Hok & _). exists c. split; [assumption|].
  destruct (Nat.eq_dec (c_k c) 0) as [E|E].
  - exfalso. inversion L as [c0 t0 H0|c0 t0 m t' c0' l0 H0 H1]; subst.
    + rewrite (root_trimmed _ _ _ _ _ HR) in Hs. discriminate.
    + destruct (leaf_cell_ok _ _ _ _ H1 (sub_ok _ _ root_ok)) as (_ & K). simpl in K. lia.
  - split; [lia|]. destruct (leaf_status _ _ _ _ _ _ _ L W E) as (S & _). rewrite S. auto.
Qed.
Lemma candidate_domain inside state cb o X q : bounds_ok cb -> box_ok X -> (let '(a, b, c) := o in a <= 9 /\ b <= 9 /\ c <= 9)%nat ->
  candidate inside state o X (active_param cb X) q -> of_domain inside state X (to_global (ip_pos q) cb).
Proof.
  intros Hb HX Ho (h & t & pts & q' & _ & HR & HA & Hq & E). pose proof (active_ok cb X Hb HX) as HU. destruct o as ((a & b) & c).
  destruct (octree_points state inside X _ h t a b c [] HX HU (proj1 Ho) (proj1 (proj2 Ho)) (proj2 (proj2 Ho)) HR) as (pts' & HA' & H1 & _).
  rewrite HA in HA'. injection HA' as ->. destruct (H1 q' Hq) as (_ & H2 & l & Hl & Hlo & H3). rewrite E in *. split; [apply active_open; assumption|].
  destruct H3 as [H3|H3]; [|left; rewrite active_global in H3 by assumption; assumption]. right.
  destruct (inside_leaf _ _ _ _ _ _ HX HR Hl H3) as (d & D1 & D2 & D3 & D4 & D5). exists d. split; [assumption|]. split; [assumption|]. split; [assumption|].
  rewrite <- (active_global cb X (ip_pos q) Hb HX). rewrite D5 in Hlo.
  rewrite <- (to_global_dyadic X (active_param cb X) d (ip_pos q) HX HU). apply (open_mapped (EB (dyadic X d) (dyadic (active_param cb X) d))); [|assumption].
  split; apply dyadic_box_ok; assumption.
Qed.

(** ** points of the fictitious domain *)
Lemma length_flat_map_le {A B} (f : A -> list B) n l : (forall x, (length (f x) <= n)%nat) -> (length (flat_map f l) <= length l * n)%nat.
Proof. intros H. induction l as [|x l IH]; [simpl; lia|]. cbn [flat_map length]. rewrite app_length. specialize (H x). lia. Qed.
Lemma fictitious_spec inside cb o alpha elem out : bounds_ok cb -> fictitious inside cb o alpha elem = Some out ->
  exists F, out = elem ++ F /\ (length F <= moments_of o)%nat /\
    forall q, In q F -> in_open (eb_param cb) (ip_pos q) /\ inside (to_global (ip_pos q) cb) = false /\ (0 < alpha -> 0 < ip_weight q).
Proof.
  intros (Hg & Hp). unfold fictitious. destruct o as ((ou & ov) & ow).
  destruct (get_gauss ou Gauss) as [u|] eqn:Eu; [|discriminate]. destruct (get_gauss ov Gauss) as [v|] eqn:Ev; [|discriminate]. destruct (get_gauss ow Gauss) as [w|] eqn:Ew; [|discriminate].
  intros E. injection E as <-. apply get_gauss_ok in Eu, Ev, Ew. destruct Eu as ((_ & Pu) & Lu). destruct Ev as ((_ & Pv) & Lv). destruct Ew as ((_ & Pw) & Lw).
  eexists. split; [reflexivity|]. split.
  - unfold fictitious_loops. eapply Nat.le_trans.
    { apply length_flat_map_le with (n := ((ov + 1) * (ow + 1))%nat). intros a. eapply Nat.le_trans.
      { apply length_flat_map_le with (n := (ow + 1)%nat). intros b. eapply Nat.le_trans.
        { apply length_flat_map_le with (n := 1%nat). intros c. destruct (inside _); simpl; lia. }
        unfold real_rule. rewrite map_length. lia. }
      unfold real_rule. rewrite map_length. rewrite Lv. lia. }
    unfold real_rule. rewrite map_length, Lu. unfold moments_of. lia.
  - intros q Hq. unfold fictitious_loops in Hq. apply in_flat_map in Hq. destruct Hq as (a & Ha & Hq). apply in_flat_map in Hq. destruct Hq as (b & Hb & Hq). apply in_flat_map in Hq. destruct Hq as (c & Hc & Hq).
    cbv zeta in Hq. destruct (inside _) eqn:EI; [contradiction|]. destruct Hq as [<-|[]]. cbn [ip_pos ip_weight].
    specialize (Pu a Ha). specialize (Pv b Hb). specialize (Pw c Hc). pose proof (Hp AX) as H1. pose proof (Hp AY) as H2. pose proof (Hp AZ) as H3. cbn [at_] in H1, H2, H3.
    split; [|split; [assumption|]].
    + assert (G : forall l m t, l < m -> 0 < t < 1 -> l < l + (m - l) * t < m) by (intros; nra). intros []; cbn [at_ px py pz]; apply G; tauto.
    + intros Hal. repeat apply Rmult_lt_0_compat; tauto || lra.
Qed.

Section Props.
Variable nnls : list (list R) -> list R -> list R * R.
Variable sort : list ipoint -> list ipoint.
Variable inside : pt -> bool.
Variable state : box -> istate.
Variables mind maxd : R.
Variable cb : ebounds.
Variable o : nat * nat * nat.
Variable target : R.
Notation assemble := (assemble_ips_trimmed nnls sort inside state mind maxd cb o target).
Notation build := (build_trimmed nnls sort inside state mind maxd cb o target).

Lemma start_any (HS : permutes sort) bps X :
  assemble_loop nnls sort inside state mind maxd cb o target (max_iteration o) (constant_terms (eb_global cb) bps o) maxd 1 [] [] (octree_new X (active_param cb X)) <> OutOfFuel /\
  forall out r early, assemble_loop nnls sort inside state mind maxd cb o target (max_iteration o) (constant_terms (eb_global cb) bps o) maxd 1 [] [] (octree_new X (active_param cb X)) = Ok (out, r, early) ->
    heavy out /\ candidates inside state o X (active_param cb X) out /\ (early = true -> out = []).
Proof. apply loop_any; [assumption|exists []; reflexivity|intros q []|intros q []|intros q []]. Qed.

Lemma assembled (HS : permutes sort) bps X alpha pts r : assemble bps X alpha = Ok (pts, r) ->
  exists E early, assemble_loop nnls sort inside state mind maxd cb o target (max_iteration o) (constant_terms (eb_global cb) bps o) maxd 1 [] [] (octree_new X (active_param cb X)) = Ok (E, r, early) /\
    heavy E /\ candidates inside state o X (active_param cb X) E /\
    match alpha with None => pts = E | Some al => (early = true /\ E = [] /\ pts = []) \/ (early = false /\ fictitious inside cb o al E = Some pts) end.
Proof.
  intros H. unfold assemble_ips_trimmed in H. destruct (start_any HS bps X) as (_ & A).
  destruct (assemble_loop _ _ _ _ _ _ _ _ _ _ _ _ _ _ _ _) as [((E & r') & early)| |] eqn:EL; try discriminate.
  destruct (A _ _ _ eq_refl) as (A1 & A2 & A3). exists E, early. destruct early.
  - specialize (A3 eq_refl). injection H as <- <-. split; [reflexivity|]. split; [assumption|]. split; [assumption|]. destruct alpha; auto.
  - destruct alpha as [al|].
    + destruct (fictitious inside cb o al E) as [e|] eqn:EF; [|discriminate]. injection H as <- <-. auto 6.
    + injection H as <- <-. auto.
Qed.

(** *** C21 *)
Lemma weights_positive bps X alpha pts : permutes sort -> bounds_ok cb -> build (Some (bps, X)) alpha = Ok (Some pts) ->
  (alpha = None -> forall q, In q pts -> / 10 ^ 14 <= ip_weight q) /\
  (forall al, alpha = Some al -> 0 < al -> forall q, In q pts -> 0 < ip_weight q).
Proof.
  intros HS Hb H. unfold build_trimmed in H. destruct (assemble bps X alpha) as [(l & r)| |] eqn:EA; try discriminate.
  assert (l = pts) as -> by (destruct l; [discriminate|injection H as <-; reflexivity]).
  destruct (assembled HS _ _ _ _ _ EA) as (E & early & _ & HE & _ & HM). split.
  - intros ->. subst E. exact HE.
  - intros al -> Hal. destruct HM as [(_ & _ & ->)|(_ & HF)]; [intros q []|]. destruct (fictitious_spec _ _ _ _ _ _ Hb HF) as (F & -> & _ & HF').
    intros q Hq. apply in_app_iff in Hq. destruct Hq as [Hq|Hq]; [|apply HF'; assumption]. specialize (HE q Hq).
    assert (0 < zerotol) by (unfold zerotol; apply Rinv_0_lt_compat, pow_lt; lra). lra.
Qed.

(** *** C22 *)
Lemma moments_nf : moments_of o = number_of_functions o.
Proof. destruct o as ((a & b) & c). reflexivity. Qed.
Lemma size_bounded bps X alpha pts : permutes sort -> bounds_ok cb -> box_ok X -> (let '(a, b, c) := o in a <= 9 /\ b <= 9 /\ c <= 9)%nat -> mind < target ->
  build (Some (bps, X)) alpha = Ok (Some pts) ->
  exists E F, pts = E ++ F /\ (length E <= moments_of o)%nat /\ (length F <= moments_of o)%nat /\ (alpha = None -> F = []) /\
    (forall q, In q E -> of_domain inside state X (to_global (ip_pos q) cb)) /\
    (forall q, In q F -> in_open (eb_global cb) (to_global (ip_pos q) cb) /\ inside (to_global (ip_pos q) cb) = false).
Proof.
  intros HS Hb HX Ho Ht H. unfold build_trimmed in H. destruct (assemble bps X alpha) as [(l & r)| |] eqn:EA; try discriminate.
  assert (l = pts) as -> by (destruct l; [discriminate|injection H as <-; reflexivity]).
  destruct (assembled HS _ _ _ _ _ EA) as (E & early & EL & HE & HC & HM).
  apply (loop_good nnls sort inside state mind maxd cb o target HS X (active_param cb X) (constant_terms (eb_global cb) bps o) Ht) in EL; [|exists []; reflexivity|intros q []|intros q []|left; reflexivity].
  assert (LE : (length E <= moments_of o)%nat).
  { rewrite moments_nf. destruct EL as [-> |(_ & F & _ & LF & _ & ->)]; [simpl; lia|]. pose proof (drop_below_length zerotol F). lia. }
  assert (DE : forall q, In q E -> of_domain inside state X (to_global (ip_pos q) cb)) by (intros q Hq; eapply candidate_domain; eauto).
  destruct alpha as [al|].
  - destruct HM as [(_ & _ & ->)|(_ & HF)].
    + exists [], []. split; [reflexivity|]. split; [simpl; lia|]. split; [simpl; lia|]. split; [reflexivity|]. split; intros q [].
    + destruct (fictitious_spec _ _ _ _ _ _ Hb HF) as (F & -> & LF & HF'). exists E, F. split; [reflexivity|]. split; [assumption|]. split; [assumption|]. split; [discriminate|]. split; [assumption|].
      intros q Hq. destruct (HF' q Hq) as (F1 & F2 & _). split; [|assumption]. apply open_mapped; assumption.
  - subst E. exists pts, []. rewrite app_nil_r. split; [reflexivity|]. split; [assumption|]. split; [simpl; lia|]. split; [reflexivity|]. split; [assumption|intros q []].
Qed.

(** *** C23 *)
Lemma terminates domain alpha : permutes sort -> build domain alpha <> OutOfFuel.
Proof.
  intros HS. unfold build_trimmed. destruct domain as [(bps & X)|]; [|discriminate]. unfold assemble_ips_trimmed. destruct (start_any HS bps X) as (N & _).
  destruct (assemble_loop _ _ _ _ _ _ _ _ _ _ _ _ _ _ _ _) as [((E & r') & early)| |]; [|discriminate|contradiction].
  destruct early; [destruct E; discriminate|]. destruct alpha as [al|]; [|destruct E; discriminate]. destruct (fictitious inside cb o al E) as [[|]|]; discriminate.
Qed.
Lemma split_weights F : (forall q, In q F -> 0 <= ip_weight q) -> exists D, (forall q, In q D -> 0 <= ip_weight q < zerotol) /\ Permutation (drop_below zerotol F ++ D) F.
Proof.
  induction F as [|q F IH]; intros H; [exists []; split; [intros q []|constructor]|]. destruct (IH (fun q Hq => H q (or_intror Hq))) as (D & HD & HP).
  unfold drop_below in *. cbn [List.filter]. destruct (Rlt_dec (ip_weight q) zerotol) as [Hw|Hw].
  - exists (q :: D). split; [intros p [<-|Hp]; [split; [apply H; left; reflexivity|assumption]|apply HD; assumption]|].
    symmetry. apply Permutation_cons_app. symmetry. assumption.
  - exists D. split; [assumption|]. cbn [app]. constructor. assumption.
Qed.
Lemma moment_perm b l l' f : Permutation l l' -> TrimmedQuadAssemble.moment b l f = TrimmedQuadAssemble.moment b l' f.
Proof. intros H. unfold TrimmedQuadAssemble.moment. apply rsum_perm, Permutation_map, H. Qed.
(** the rule comes from one fit; if the solver keeps its promise for this fit, the rule is accurate *)
Lemma accurate_fit bps X pts : permutes sort -> bounds_ok cb -> box_ok X -> (let '(a, b, c) := o in a <= 8 /\ b <= 8 /\ c <= 8)%nat -> mind < target ->
  (exists i j k, moment_index o i j k /\ constant_term (eb_global cb) bps (i, j, k) <> 0) ->
  build (Some (bps, X)) None = Ok (Some pts) ->
  exists cand r, cand <> [] /\ (length cand <= moments_of o)%nat /\ pts = drop_below (/ 10 ^ 14) (fst (moment_fitting nnls cb o (constant_terms (eb_global cb) bps o) cand)) /\
    r = snd (moment_fitting nnls cb o (constant_terms (eb_global cb) bps o) cand) /\ r <= / 100 /\
  (contract_at nnls (map (column cb o) cand) (constant_terms (eb_global cb) bps o) ->
  exists D, 0 <= r <= / 100 /\ (forall q, In q D -> 0 <= ip_weight q < / 10 ^ 14) /\ (length (pts ++ D) <= moments_of o)%nat /\
    forall i j k, moment_index o i j k ->
      Rabs (rsum (map (fun q => ip_weight q * det_j cb * phi (eb_global cb) i j k (to_global (ip_pos q) cb)) (pts ++ D)) - constant_term (eb_global cb) bps (i, j, k))
      <= r * sqrt (rsum (map (fun x => x * x) (map (constant_term (eb_global cb) bps) (rows o))))).
Proof.
  intros HS Hb HX Ho Ht (i0 & j0 & k0 & Hi0 & Hn0) H. unfold build_trimmed in H. destruct (assemble bps X None) as [(l & r)| |] eqn:EA; try discriminate.
  assert (l = pts) as -> by (destruct l; [discriminate|injection H as <-; reflexivity]). assert (NE : pts <> []) by (intros ->; discriminate).
  destruct (assembled HS _ _ _ _ _ EA) as (E & early & EL & HE & HC & HM). subst E.
  apply (loop_good nnls sort inside state mind maxd cb o target HS X (active_param cb X) (constant_terms (eb_global cb) bps o) Ht) in EL; [|exists []; reflexivity|intros q []|intros q []|left; reflexivity].
  destruct EL as [-> |(Hr & F & HF & LF & _ & EF)]; [contradiction|].
  assert (L2 : forall v, l2 v = sqrt (rsum (map (fun x => x * x) v))).
  { intros v. unfold l2. f_equal. assert (G : forall v a, fold_left (fun acc x => acc + x * x) v a = a + rsum (map (fun x => x * x) v)).
    { clear. induction v as [|x v IH]; intros a; simpl; [ring|]. rewrite IH. unfold rsum. ring. } rewrite G. ring. }
  assert (NZ : l2 (constant_terms (eb_global cb) bps o) <> 0).
  { rewrite L2. unfold constant_terms. rewrite map_map. pose proof (sq_sum_le) as SQ.
    assert (P : forall (l : list (nat * nat * nat)) (f : nat * nat * nat -> R) m, In m l -> f m * f m <= rsum (map (fun k => f k * f k) l)).
    { clear. intros l f. assert (P : forall l, 0 <= rsum (map (fun k => f k * f k) l)).
      { induction l0 as [|k l0 IH]; [simpl; lra|]. cbn [map rsum fold_right]. unfold rsum in IH. pose proof (Rle_0_sqr (f k)). unfold Rsqr in *. lra. }
      induction l as [|k l IH]; intros m H; [destruct H|]. cbn [map rsum fold_right]. destruct H as [-> |H]; [pose proof (P l); unfold rsum in *; lra|].
      specialize (IH m H). pose proof (Rle_0_sqr (f k)). unfold rsum, Rsqr in *. lra. }
    specialize (P (rows o) (constant_term (eb_global cb) bps) (i0, j0, k0) (proj2 (rows_in o i0 j0 k0) Hi0)).
    assert (0 < constant_term (eb_global cb) bps (i0, j0, k0) * constant_term (eb_global cb) bps (i0, j0, k0)) by (pose proof (Rsqr_pos_lt _ Hn0); unfold Rsqr in *; assumption).
    intros K. apply sqrt_eq_0 in K; lra. }
  destruct HF as (cand & HF). exists cand, r. pose proof HF as HF'. apply (f_equal fst) in HF' as HF1. apply (f_equal snd) in HF' as HF2. cbn [fst snd] in HF1, HF2.
  assert (HL : length cand = length F). { rewrite HF1. unfold moment_fitting. destruct (nnls _ _) as (x & rn). cbn [fst]. symmetry. apply set_weights_length. }
  split; [intros ->; destruct F; [apply NE; rewrite EF; reflexivity|discriminate]|]. split; [rewrite HL, moments_nf; assumption|].
  split; [rewrite <- HF1; exact EF|]. split; [exact HF2|]. split; [simpl in Hr; lra|]. intros HN.
  destruct (fit_moments nnls cb o (constant_term (eb_global cb) bps) cand F r HN Hb NZ HF) as (R0 & W & _ & M).
  destruct (split_weights F W) as (D & HD & HP). exists D. split; [simpl in Hr; lra|]. split; [exact HD|]. split.
  { rewrite EF, (Permutation_length HP), moments_nf. assumption. }
  intros i j k Hi. specialize (M (i, j, k) (proj2 (rows_in o i j k) Hi)). rewrite L2 in M.
  replace (rsum (map (fun q => ip_weight q * det_j cb * phi (eb_global cb) i j k (to_global (ip_pos q) cb)) (pts ++ D)))
    with (TrimmedQuadAssemble.moment cb F (shape (eb_global cb) (i, j, k))); [exact M|].
  rewrite EF, <- (moment_perm cb _ _ _ HP). unfold TrimmedQuadAssemble.moment. apply rsum_ext. intros q. cbn [ip_to_global ip_weight ip_pos].
  rewrite (phi_shape o) by assumption. reflexivity.
Qed.

Lemma accurate bps X pts : permutes sort -> nnls_contract nnls -> bounds_ok cb -> box_ok X -> (let '(a, b, c) := o in a <= 8 /\ b <= 8 /\ c <= 8)%nat -> mind < target ->
  (exists i j k, moment_index o i j k /\ constant_term (eb_global cb) bps (i, j, k) <> 0) ->
  build (Some (bps, X)) None = Ok (Some pts) ->
  exists r D, 0 <= r <= / 100 /\ (forall q, In q D -> 0 <= ip_weight q < / 10 ^ 14) /\ (length (pts ++ D) <= moments_of o)%nat /\
    forall i j k, moment_index o i j k ->
      Rabs (rsum (map (fun q => ip_weight q * det_j cb * phi (eb_global cb) i j k (to_global (ip_pos q) cb)) (pts ++ D)) - constant_term (eb_global cb) bps (i, j, k))
      <= r * sqrt (rsum (map (fun x => x * x) (map (constant_term (eb_global cb) bps) (rows o)))).
Proof.
  intros HS HN Hb HX Ho Ht Hi H. destruct (accurate_fit bps X pts HS Hb HX Ho Ht Hi H) as (cand & r & _ & _ & _ & _ & _ & K).
  destruct K as (D & K). { apply HN. intros c Hc. apply in_map_iff in Hc. destruct Hc as (q & <- & _). unfold column, constant_terms. rewrite !map_length. reflexivity. }
  exists r, D. exact K.
Qed.

(** *** C24 *)
Lemma defined bps X alpha : permutes sort -> bounds_ok cb -> box_ok X -> (let '(a, b, c) := o in a <= 9 /\ b <= 9 /\ c <= 9)%nat -> mind < target ->
  (forall h t l, h <> [] -> refinements state h (octree_new X (active_param cb X)) = Some t -> add_points inside o t [] = Some l -> l <> [] -> (moments_of o <= length l)%nat) ->
  build (Some (bps, X)) alpha <> Undefined.
Proof.
  intros HS Hb HX Ho Ht Hen. unfold build_trimmed, assemble_ips_trimmed.
  pose proof (loop_defined nnls sort inside state mind maxd cb o target HS X (active_param cb X) (constant_terms (eb_global cb) bps o) Ht HX (active_ok cb X Hb HX) Ho) as D.
  assert (Hen' : forall l, fresh inside state o X (active_param cb X) l -> l <> [] -> (number_of_functions o <= length l)%nat).
  { intros l (h & t & H1 & H2 & H3) H4. rewrite <- moments_nf. eapply Hen; eassumption. }
  specialize (D Hen' (max_iteration o) maxd 1%nat [] [] (octree_new X (active_param cb X))). specialize (D ltac:(exists []; reflexivity)).
  pose proof (nf_pos o) as NP. specialize (D ltac:(simpl; lia) ltac:(lia)). cbv beta in D.
  destruct (assemble_loop _ _ _ _ _ _ _ _ _ _ _ _ _ _ _ _) as [((E & r') & early)| |]; [|contradiction|discriminate].
  destruct early; [destruct E; discriminate|]. destruct alpha as [al|]; [|destruct E; discriminate].
  destruct (fictitious inside cb o al E) as [[|]|] eqn:EF; try discriminate. exfalso. unfold fictitious in EF. destruct o as ((a & b) & c).
  assert (O : order_ok Gauss a /\ order_ok Gauss b /\ order_ok Gauss c) by (simpl; tauto).
  revert EF. destruct O as (O1 & O2 & O3). apply get_gauss_some in O1, O2, O3. destruct O1 as (u & ->). destruct O2 as (v & ->). destruct O3 as (w & ->). discriminate.
Qed.
End Props.
