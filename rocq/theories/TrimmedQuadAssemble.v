From Coq Require Import Arith NArith Reals List Bool Lra Lia Permutation.
From Verif Require Import Geo GridStoreModel GgqModel GgqProofs Ggq1dModel GaussModel GaussProofs GaussProps MappingModel MappingProps PolyModel
  OctreeModel OctreeSpec OctreeProofs OctreeProps TrimmedQuadModel TrimmedQuadProofs.
Import ListNotations.
Local Open Scope R_scope.

Section Assemble.
Variable nnls : list (list R) -> list R -> list R * R.
Variable sort : list ipoint -> list ipoint.
Variable inside : pt -> bool.
Variable state : box -> istate.
Variables mind maxd : R.
Variable cb : ebounds.
Variable o : nat * nat * nat.
Variable target : R.
Hypothesis sort_perm : forall l, Permutation (sort l) l.
Variables (X U : box).
Variable ct : list R.
Notation nf := (number_of_functions o).
Notation new := (octree_new X U).
Notation fitted := (fitted nnls cb o ct).
Notation elimination := (point_elimination nnls sort mind maxd cb o target ct).
Notation loop := (fun n => assemble_loop nnls sort inside state mind maxd cb o target n ct).

(** a point that sits where a refinement of the octree offered one *)
Definition candidate (q : ipoint) : Prop :=
  exists h t pts q', h <> [] /\ refinements state h new = Some t /\ add_points inside o t [] = Some pts /\ In q' pts /\ ip_pos q' = ip_pos q.
Definition candidates (l : list ipoint) : Prop := forall q, In q l -> candidate q.
Definition reachable (t : octree) : Prop := exists h, refinements state h new = Some t.
Definition fresh (l : list ipoint) : Prop := exists h t, h <> [] /\ refinements state h new = Some t /\ add_points inside o t [] = Some l.

Lemma fresh_candidates l : fresh l -> candidates l.
Proof. intros (h & t & H1 & H2 & H3) q Hq. exists h, t, l, q. auto. Qed.
Lemma positions_candidates a l : positions_in a l -> candidates a -> candidates l.
Proof. intros HP HC q Hq. destruct (HP q Hq) as (q' & Hq' & E). destruct (HC q' Hq') as (h & t & pts & q2 & H1 & H2 & H3 & H4 & H5). exists h, t, pts, q2. repeat split; try assumption. congruence. Qed.
Lemma refine_reachable mn mx t t' : reachable t -> octree_refine state mn mx t = Some t' -> exists h, h <> [] /\ refinements state h new = Some t'.
Proof.
  intros (h & H) H'. exists (h ++ [(mn, mx)]). split; [destruct h; discriminate|]. rewrite refinements_app, H. simpl. rewrite H'. reflexivity.
Qed.

Lemma distribute_loop_spec : forall n minnum lvl pts oct pts' oct', reachable oct ->
  distribute_loop inside state o n minnum lvl pts oct = Some (pts', oct') ->
  reachable oct' /\ (pts' = pts \/ fresh pts') /\ ((length pts < minnum)%nat -> (0 < n)%nat -> fresh pts').
Proof.
  induction n as [|n IH]; intros minnum lvl pts oct pts' oct' HR H; cbn [distribute_loop] in H; destruct (Nat.ltb_spec (length pts) minnum) as [L|L].
  - injection H as <- <-. split; [assumption|]. split; [auto|lia].
  - injection H as <- <-. split; [assumption|]. split; [auto|lia].
  - destruct (octree_refine state (Nat.min lvl 4) lvl oct) as [oct1|] eqn:E1; [|discriminate]. destruct (add_points inside o oct1 []) as [pts1|] eqn:E2; [|discriminate].
    destruct (refine_reachable _ _ _ _ HR E1) as (h1 & N1 & R1).
    assert (F1 : fresh pts1) by (exists h1, oct1; auto).
    apply IH in H; [|exists h1; assumption]. destruct H as (A & B & _). split; [assumption|].
    assert (fresh pts') by (destruct B as [-> |B]; assumption). auto.
  - injection H as <- <-. split; [assumption|]. split; [auto|lia].
Qed.
Lemma distribute_loop_total : box_ok X -> box_ok U -> (let '(ou, ov, ow) := o in (ou <= 9 /\ ov <= 9 /\ ow <= 9)%nat) ->
  forall n minnum lvl pts oct, reachable oct -> exists r, distribute_loop inside state o n minnum lvl pts oct = Some r.
Proof.
  intros HX HU Ho. induction n as [|n IH]; intros minnum lvl pts oct HR; cbn [distribute_loop]; destruct (Nat.ltb_spec (length pts) minnum) as [L|L]; try (eexists; reflexivity).
  destruct (octree_refine state (Nat.min lvl 4) lvl oct) as [oct1|] eqn:E1.
  - destruct (refine_reachable _ _ _ _ HR E1) as (h1 & N1 & R1). destruct o as ((ou & ov) & ow).
    destruct (octree_points state inside X U h1 oct1 ou ov ow [] HX HU (proj1 Ho) (proj1 (proj2 Ho)) (proj2 (proj2 Ho)) R1) as (pts1 & E2 & _). rewrite E2.
    apply IH. exists h1. assumption.
  - unfold octree_refine in E1. destruct (Nat.ltb_spec lvl (Nat.min lvl 4)); [lia|discriminate].
Qed.

(** ** the loop without any guard: kept weights, origin of the points, termination *)
Definition heavy (l : list ipoint) : Prop := forall q, In q l -> zerotol <= ip_weight q.
Lemma elimination_any pts : elimination pts [] <> OutOfFuel /\
  forall out r rest, elimination pts [] = Ok (out, r, rest) -> heavy out /\ positions_in pts out /\ positions_in pts rest.
Proof.
  destruct (elimination_spec nnls sort mind maxd cb o target sort_perm ct pts []) as (S1 & S2 & S3).
  destruct (Rle_lt_dec target mind) as [H|H].
  - rewrite (S1 H). split; [discriminate|]. intros out r rest E. injection E as <- <- <-. split; [|split].
    + intros q Hq. apply drop_below_in in Hq. tauto.
    + intros q Hq. apply drop_below_in in Hq. rewrite app_nil_r in Hq. exists q. tauto.
    + apply positions_refl.
  - destruct (le_lt_dec nf (length pts)) as [L|L]; [|rewrite (S2 H L); split; [discriminate|intros; discriminate]].
    destruct (S3 H L) as (out & r & rest & E & Sr & C). rewrite E. split; [discriminate|]. intros out' r' rest' E'. injection E' as <- <- <-.
    split; [|split; [|apply Sr]].
    + intros q Hq. destruct C as [(_ & ->)|(F & _ & _ & ->)]; apply drop_below_in in Hq; tauto.
    + destruct C as [(_ & ->)|(F & _ & SF & ->)]; intros q Hq; apply drop_below_in in Hq; destruct Hq as (Hq & _); [contradiction|]. rewrite app_nil_r in Hq. apply SF. assumption.
Qed.
Lemma candidates_app a b : candidates a -> candidates b -> candidates (a ++ b).
Proof. intros Ha Hb q Hq. apply in_app_iff in Hq. destruct Hq; auto. Qed.
Lemma loop_any : forall n residual fac pts elem oct, reachable oct -> candidates pts -> candidates elem -> heavy elem ->
  loop n residual fac pts elem oct <> OutOfFuel /\
  forall out r early, loop n residual fac pts elem oct = Ok (out, r, early) -> heavy out /\ candidates out /\ (early = true -> out = []).
Proof.
  induction n as [|n IH]; intros residual fac pts elem oct HR Hp He Hh; cbn [assemble_loop]; destruct (Rlt_dec target residual) as [Hlt|Hlt];
    try (split; [discriminate|]; intros out r early E; injection E as <- <- <-; split; [assumption|]; split; [assumption|discriminate]).
  destruct (distribute inside state o (nf * fac) pts oct) as [([|q pts1] & oct1)|] eqn:ED.
  - split; [discriminate|]. intros out r early E. injection E as <- <- <-. split; [intros q []|]. split; [intros q []|reflexivity].
  - apply distribute_loop_spec in ED; [|assumption]. destruct ED as (R1 & F1 & _). set (pts' := q :: pts1) in *.
    assert (C1 : candidates (pts' ++ elem)) by (apply candidates_app; [destruct F1 as [-> |F1]; [assumption|apply fresh_candidates; assumption]|assumption]).
    destruct (elimination_any (pts' ++ elem)) as (NF & EA). destruct (elimination (pts' ++ elem) []) as [((out1 & r1) & rest1)| |]; [|split; [discriminate|intros; discriminate]|contradiction].
    destruct (EA _ _ _ eq_refl) as (H1 & H2 & H3). apply IH.
    + assumption.
    + eapply positions_candidates; eassumption.
    + destruct (Rlt_dec (/ 10 ^ 2) r1); [intros q0 []|]. eapply positions_candidates; eassumption.
    + destruct (Rlt_dec (/ 10 ^ 2) r1); [intros q0 []|assumption].
  - split; [discriminate|intros; discriminate].
Qed.

(** ** the loop with Residual > MIND *)
Hypothesis Htar : mind < target.
Definition good (elem : list ipoint) (r : R) : Prop :=
  elem = [] \/ (r <= / 10 ^ 2 /\ exists F, fitted F r /\ (length F <= nf)%nat /\ candidates F /\ elem = drop_below zerotol F).
Lemma loop_good : forall n residual fac pts elem oct, reachable oct -> candidates pts -> candidates elem -> good elem residual ->
  forall out r early, loop n residual fac pts elem oct = Ok (out, r, early) -> good out r.
Proof.
  induction n as [|n IH]; intros residual fac pts elem oct HR Hp He Hg out r early; cbn [assemble_loop]; destruct (Rlt_dec target residual) as [Hlt|Hlt];
    try (intros E; injection E as <- <- <-; assumption).
  destruct (distribute inside state o (nf * fac) pts oct) as [([|q pts1] & oct1)|] eqn:ED.
  - intros E. injection E as <- <- <-. left. reflexivity.
  - apply distribute_loop_spec in ED; [|assumption]. destruct ED as (R1 & F1 & _). set (pts' := q :: pts1) in *.
    assert (C1 : candidates (pts' ++ elem)) by (apply candidates_app; [destruct F1 as [-> |F1]; [assumption|apply fresh_candidates; assumption]|assumption]).
    destruct (elimination_any (pts' ++ elem)) as (NF & EA).
    destruct (elimination_spec nnls sort mind maxd cb o target sort_perm ct (pts' ++ elem) []) as (_ & S2 & S3).
    destruct (elimination (pts' ++ elem) []) as [((out1 & r1) & rest1)| |] eqn:EE; [|discriminate|contradiction].
    destruct (EA _ _ _ eq_refl) as (H1 & H2 & H3).
    assert (L : (nf <= length (pts' ++ elem))%nat) by (destruct (le_lt_dec nf (length (pts' ++ elem))) as [L|L]; [assumption|specialize (S2 Htar L); discriminate]).
    destruct (S3 Htar L) as (out2 & r2 & rest2 & E2 & Sr & C). injection E2 as -> -> ->.
    apply IH.
    + assumption.
    + eapply positions_candidates; eassumption.
    + destruct (Rlt_dec (/ 10 ^ 2) r2); [intros q0 []|]. eapply positions_candidates; eassumption.
    + destruct (Rlt_dec (/ 10 ^ 2) r2) as [Hr|Hr]; [left; reflexivity|]. destruct C as [(_ & ->)|(F & HF & (F2 & F3) & ->)]; [left; reflexivity|].
      right. split; [lra|]. exists F. split; [assumption|]. split; [assumption|]. split; [eapply positions_candidates; eassumption|]. rewrite app_nil_r. reflexivity.
  - discriminate.
Qed.

(** ** no undefined behaviour if every refinement offers enough points *)
Lemma nf_pos : (0 < nf)%nat.
Proof. destruct o as ((ou & ov) & ow). unfold number_of_functions. destruct ou, ov, ow; simpl; lia. Qed.
Lemma loop_defined : box_ok X -> box_ok U -> (let '(ou, ov, ow) := o in (ou <= 9 /\ ov <= 9 /\ ow <= 9)%nat) ->
  (forall l, fresh l -> l <> [] -> (nf <= length l)%nat) ->
  forall n residual fac pts elem oct, reachable oct -> (length pts < nf * fac)%nat -> (0 < fac)%nat -> loop n residual fac pts elem oct <> Undefined.
Proof.
  intros HX HU Ho Hen. induction n as [|n IH]; intros residual fac pts elem oct HR Hl Hf; cbn [assemble_loop]; destruct (Rlt_dec target residual) as [Hlt|Hlt]; try discriminate.
  unfold distribute. destruct (distribute_loop_total HX HU Ho 5 (nf * fac) (o_max oct + 1) pts oct HR) as ((pts1 & oct1) & ED). rewrite ED.
  pose proof (distribute_loop_spec _ _ _ _ _ _ _ HR ED) as (R1 & _ & F1). specialize (F1 Hl ltac:(lia)).
  destruct pts1 as [|q pts1]; [discriminate|]. set (pts' := q :: pts1) in *.
  assert (L : (nf <= length (pts' ++ elem))%nat) by (rewrite app_length; specialize (Hen _ F1 ltac:(discriminate)); lia).
  destruct (elimination_spec nnls sort mind maxd cb o target sort_perm ct (pts' ++ elem) []) as (_ & _ & S3).
  destruct (S3 Htar L) as (out2 & r2 & rest2 & E2 & (Sr & _) & C). rewrite E2. apply IH; [assumption| |lia].
  pose proof nf_pos. nia.
Qed.
End Assemble.

(** ** moments of a fitted rule *)
Section Moments.
Variable nnls : list (list R) -> list R -> list R * R.
Variable cb : ebounds.
Variable o : nat * nat * nat.

(** what the solver promises: one non-negative weight per column, and its residual is the Euclidean norm of A x - b *)
Definition apply_row (A : list (list R)) (x : list R) (m : nat) : R := rsum (map (fun p => fst p * nth m (snd p) 0) (combine x A)).
Definition contract_at (A : list (list R)) (b : list R) : Prop :=
  let '(x, rn) := nnls A b in
  length x = length A /\ (forall w, In w x -> 0 <= w) /\ 0 <= rn /\
  rn * rn = rsum (map (fun m => (apply_row A x m - nth m b 0) * (apply_row A x m - nth m b 0)) (seq 0 (length b))).
Definition nnls_contract : Prop := forall A b, (forall c, In c A -> length c = length b) -> contract_at A b.

(** value of a weighted sum of a function over integration points in global space *)
Definition moment (b : ebounds) (l : list ipoint) (f : pt -> R) : R :=
  rsum (map (fun q => ip_weight (ip_to_global q b) * f (ip_pos (ip_to_global q b))) l).

Lemma shape_global b r p : bounds_ok b -> shape (eb_param b) r p = shape (eb_global b) r (to_global p b).
Proof.
  intros H. destruct r as ((i & j) & k). unfold shape.
  assert (E : forall n a, f_x (at_ a p) n (at_ a (lower (eb_param b))) (at_ a (upper (eb_param b))) =
                          f_x (at_ a (to_global p b)) n (at_ a (lower (eb_global b))) (at_ a (upper (eb_global b)))).
  { intros n a. pose proof (to_global_at p b a H) as T. destruct H as (Hg & Hp). pose proof (Hg a) as H1. pose proof (Hp a) as H2. unfold side in T.
    unfold f_x. replace ((2 * at_ a (to_global p b) - at_ a (lower (eb_global b)) - at_ a (upper (eb_global b))) / (at_ a (upper (eb_global b)) - at_ a (lower (eb_global b))))
      with ((2 * at_ a p - at_ a (lower (eb_param b)) - at_ a (upper (eb_param b))) / (at_ a (upper (eb_param b)) - at_ a (lower (eb_param b)))); [reflexivity|].
    rewrite T. field. lra. }
  pose proof (E i AX) as E1. pose proof (E j AY) as E2. pose proof (E k AZ) as E3. cbn [at_] in E1, E2, E3. rewrite E1, E2, E3. reflexivity.
Qed.

Lemma rsum_ext_in {A} (f g : A -> R) (l : list A) : (forall x, In x l -> f x = g x) -> rsum (map f l) = rsum (map g l).
Proof. induction l as [|x l IH]; intros H; [reflexivity|]. cbn [map rsum fold_right]. rewrite (H x (or_introl eq_refl)). unfold rsum in IH. rewrite IH; [reflexivity|]. intros y Hy. apply H. right. assumption. Qed.
Lemma map_seq_nth {A} (l : list A) d : map (fun m => nth m l d) (seq 0 (length l)) = l.
Proof.
  apply nth_ext with d d; [rewrite map_length, seq_length; reflexivity|]. intros n Hn. rewrite map_length, seq_length in Hn.
  rewrite nth_indep with (d' := (fun m => nth m l d) 0%nat) by (rewrite map_length, seq_length; assumption).
  rewrite (map_nth (fun m => nth m l d)). rewrite seq_nth by assumption. reflexivity.
Qed.

Lemma applied_row_moment : bounds_ok cb -> forall cand ws m row, length ws = length cand -> nth_error (rows o) m = Some row ->
  apply_row (map (column cb o) cand) ws m = moment cb (set_weights cb cand ws) (shape (eb_global cb) row).
Proof.
  intros Hb cand. unfold apply_row, moment. induction cand as [|q cand IH]; intros ws m row Hl Hm; destruct ws as [|w ws]; try discriminate; [reflexivity|].
  cbn [map combine set_weights rsum fold_right hd tl]. unfold rsum in IH. rewrite (IH ws m row); [|simpl in Hl; lia|assumption]. f_equal.
  cbn [fst snd]. unfold ip_to_global. cbn [ip_pos ip_weight].
  assert (E : nth m (column cb o q) 0 = shape (eb_param cb) row (ip_pos q)).
  { unfold column. apply nth_error_nth. rewrite nth_error_map, Hm. reflexivity. }
  rewrite E, shape_global by assumption. pose proof (det_j_pos _ Hb). field. lra.
Qed.

Lemma sq_sum_le (f : nat -> R) : forall l m, In m l -> (f m) * (f m) <= rsum (map (fun k => f k * f k) l).
Proof.
  assert (P : forall l, 0 <= rsum (map (fun k => f k * f k) l)).
  { induction l as [|k l IH]; [simpl; lra|]. cbn [map rsum fold_right]. unfold rsum in IH. pose proof (Rle_0_sqr (f k)). unfold Rsqr in *. lra. }
  induction l as [|k l IH]; intros m H; [destruct H|]. cbn [map rsum fold_right]. destruct H as [-> |H].
  - pose proof (P l). unfold rsum in *. lra.
  - specialize (IH m H). pose proof (Rle_0_sqr (f k)). unfold rsum, Rsqr in *. lra.
Qed.
Lemma fit_moments (g : nat * nat * nat -> R) cand F r : contract_at (map (column cb o) cand) (map g (rows o)) -> bounds_ok cb -> l2 (map g (rows o)) <> 0 ->
  (F, r) = moment_fitting nnls cb o (map g (rows o)) cand ->
  0 <= r /\ (forall q, In q F -> 0 <= ip_weight q) /\
  rsum (map (fun row => (moment cb F (shape (eb_global cb) row) - g row) * (moment cb F (shape (eb_global cb) row) - g row)) (rows o)) =
    (r * l2 (map g (rows o))) * (r * l2 (map g (rows o))) /\
  forall row, In row (rows o) -> Rabs (moment cb F (shape (eb_global cb) row) - g row) <= r * l2 (map g (rows o)).
Proof.
  intros HN Hb Hl E. unfold moment_fitting in E. unfold contract_at in HN.
  destruct (nnls (map (column cb o) cand) (map g (rows o))) as (x & rn). injection E as -> ->.
  destruct HN as (H1 & H2 & H3 & H4).
  rewrite map_length in H1. set (n2 := l2 (map g (rows o))) in *.
  assert (Hn2 : 0 < n2). { assert (0 <= n2) by apply sqrt_pos. lra. }
  assert (Er : rn / n2 * n2 = rn) by (field; lra).
  assert (Eq : rsum (map (fun row => (moment cb (set_weights cb cand x) (shape (eb_global cb) row) - g row) * (moment cb (set_weights cb cand x) (shape (eb_global cb) row) - g row)) (rows o)) = rn * rn).
  { rewrite H4, map_length. rewrite <- (map_seq_nth (rows o) (0, 0, 0)%nat) at 1. rewrite map_map. apply rsum_ext_in. intros m Hm. apply in_seq in Hm.
    assert (Em : nth_error (rows o) m = Some (nth m (rows o) (0, 0, 0)%nat)) by (apply nth_error_nth'; lia).
    rewrite (applied_row_moment Hb cand x m _ H1 Em).
    assert (Eg : nth m (map g (rows o)) 0 = g (nth m (rows o) (0, 0, 0)%nat)) by (apply nth_error_nth; rewrite nth_error_map, Em; reflexivity).
    rewrite Eg. reflexivity. }
  rewrite Er. split; [apply Rle_mult_inv_pos; assumption|]. split; [|split].
  - clear -H1 H2 Hb. revert x H1 H2. induction cand as [|q cand IH]; intros [|w x] H1 H2; try discriminate; [intros q []|]. cbn [set_weights hd tl].
    intros p [<-|Hp].
    + cbn [ip_weight]. apply Rle_mult_inv_pos; [apply H2; left; reflexivity|apply det_j_pos; assumption].
    + apply (IH x); [simpl in H1; lia|intros w' Hw'; apply H2; right; assumption|assumption].
  - exact Eq.
  - intros row Hrow. destruct (In_nth_error _ _ Hrow) as (m & Hm).
    set (f := fun m => let row := nth m (rows o) (0, 0, 0)%nat in moment cb (set_weights cb cand x) (shape (eb_global cb) row) - g row).
    assert (Eq' : rsum (map (fun k => f k * f k) (seq 0 (length (rows o)))) = rn * rn).
    { rewrite <- Eq. rewrite <- (map_seq_nth (rows o) (0, 0, 0)%nat) at 2. rewrite map_map. reflexivity. }
    assert (Hm' : (m < length (rows o))%nat) by (apply nth_error_Some; congruence).
    pose proof (sq_sum_le f (seq 0 (length (rows o))) m ltac:(apply in_seq; lia)) as K. rewrite Eq' in K.
    assert (Ef : f m = moment cb (set_weights cb cand x) (shape (eb_global cb) row) - g row) by (unfold f; rewrite (nth_error_nth _ _ _ Hm); reflexivity).
    rewrite <- Ef. apply Rsqr_le_abs_0 in K. rewrite (Rabs_right rn) in K by lra. exact K.
Qed.
End Moments.
