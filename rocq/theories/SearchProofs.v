(** Proofs about the search tree: insertions keep a well-formed tree over the pool of nodes. *)
From Coq Require Import List Arith Bool ZArith Lia Permutation.
From Verif Require Import StlModel SearchModel Perm.
Import ListNotations.

(** A comparison without NaN: a strict weak order. *)
Record ordered (A : arith) : Prop := {
  lt_irrefl : forall a, ltb A a a = false;
  lt_trans : forall a b c, ltb A a b = true -> ltb A b c = true -> ltb A a c = true;
  ge_trans : forall a b c, ltb A a b = false -> ltb A b c = false -> ltb A a c = false }.

Section S.
Variable A : arith.
Hypothesis HA : ordered A.
Notation D := (num A).
Notation box := (aabb A).
Notation nd := (node A).
Notation st := (tree A).

Definition le (a b : D) : Prop := ltb A b a = false.
Lemma le_refl a : le a a. Proof. apply (lt_irrefl A HA). Qed.
Lemma le_trans a b c : le a b -> le b c -> le a c.
Proof. unfold le. intros H1 H2. exact (ge_trans A HA c b a H2 H1). Qed.
Lemma lt_le a b : ltb A a b = true -> le a b.
Proof.
  unfold le. intros H. destruct (ltb A b a) eqn:E; [ | reflexivity].
  pose proof (lt_trans A HA _ _ _ H E) as H1. rewrite (lt_irrefl A HA) in H1. discriminate.
Qed.
Lemma dmin_l a b : le (dmin A a b) a.
Proof. unfold dmin. destruct (ltb A b a) eqn:E; [apply lt_le, E | apply le_refl]. Qed.
Lemma dmin_r a b : le (dmin A a b) b.
Proof. unfold dmin. destruct (ltb A b a) eqn:E; [apply le_refl | exact E]. Qed.
Lemma dmax_l a b : le a (dmax A a b).
Proof. unfold dmax. destruct (ltb A a b) eqn:E; [apply lt_le, E | apply le_refl]. Qed.
Lemma dmax_r a b : le b (dmax A a b).
Proof. unfold dmax. destruct (ltb A a b) eqn:E; [apply le_refl | exact E]. Qed.

(** Containment of boxes. *)
Definition vle (a b : vec D) : Prop := le (vx a) (vx b) /\ le (vy a) (vy b) /\ le (vz a) (vz b).
Definition inside (a b : box) : Prop := vle (lo A b) (lo A a) /\ vle (up A a) (up A b).
Definition valid (b : box) : Prop := vle (lo A b) (up A b).

Lemma vle_trans a b c : vle a b -> vle b c -> vle a c.
Proof. intros (H1 & H2 & H3) (H4 & H5 & H6). split; [ | split]; eapply le_trans; eassumption. Qed.
Lemma vle_refl a : vle a a.
Proof. split; [ | split]; apply le_refl. Qed.
Lemma inside_trans a b c : inside a b -> inside b c -> inside a c.
Proof. intros [H1 H2] [H3 H4]. split; eapply vle_trans; eassumption. Qed.
Lemma inside_refl a : inside a a.
Proof. split; apply vle_refl. Qed.
Lemma merge_l a b : inside a (merge A a b).
Proof. split; (split; [ | split]); cbn; first [apply dmin_l | apply dmax_l]. Qed.
Lemma merge_r a b : inside b (merge A a b).
Proof. split; (split; [ | split]); cbn; first [apply dmin_r | apply dmax_r]. Qed.
Lemma merge_valid a b : valid a -> valid (merge A a b).
Proof.
  intros H. destruct (merge_l a b) as [H1 H2]. unfold valid.
  eapply vle_trans; [exact H1 | ]. eapply vle_trans; [exact H | exact H2].
Qed.
Lemma bad_bounds_valid b : bad_bounds A b = false <-> valid b.
Proof.
  unfold bad_bounds, valid, vle, le. rewrite !orb_false_iff. tauto.
Qed.

(** Trees, with the index of each node in the pool. *)
Inductive bt := Lf (i : nat) (b : box) | Br (i : nat) (b : box) (h : Z) (l r : bt).
Definition idx (s : bt) : nat := match s with Lf i _ => i | Br i _ _ _ _ => i end.
Definition box_of (s : bt) : box := match s with Lf _ b => b | Br _ b _ _ _ => b end.
Definition ht (s : bt) : Z := match s with Lf _ _ => 0%Z | Br _ _ h _ _ => h end.
Fixpoint ids (s : bt) : list nat :=
  match s with Lf i _ => [i] | Br i _ _ l r => i :: ids l ++ ids r end.
Fixpoint leaves (s : bt) : list (nat * box) :=
  match s with Lf i b => [(i, b)] | Br _ _ _ l r => leaves l ++ leaves r end.
Fixpoint wf (s : bt) : Prop :=
  match s with
  | Lf _ b => valid b
  | Br _ b h l r =>
      valid b /\ inside (box_of l) b /\ inside (box_of r) b /\ h = (1 + Z.max (ht l) (ht r))%Z /\ wf l /\ wf r
  end.
Lemma wf_ht s : wf s -> (0 <= ht s)%Z.
Proof.
  induction s as [i b | i b h l IHl r IHr]; cbn [wf ht]; [lia | ]. intros (_ & _ & _ & -> & H1 & H2). specialize (IHl H1). lia.
Qed.
Lemma wf_valid s : wf s -> valid (box_of s).
Proof. destruct s; cbn; tauto. Qed.
Lemma idx_ids s : In (idx s) (ids s).
Proof. destruct s; cbn; auto. Qed.

(** The tree is stored in the pool below the given parent. *)
Fixpoint rep (m : nat -> nd) (par : option nat) (s : bt) : Prop :=
  match s with
  | Lf i b =>
      n_parent A (m i) = par /\ n_left A (m i) = None /\ n_right A (m i) = None /\ n_height A (m i) = 0%Z /\ n_box A (m i) = b
  | Br i b h l r =>
      n_parent A (m i) = par /\ n_left A (m i) = Some (idx l) /\ n_right A (m i) = Some (idx r) /\ n_height A (m i) = h /\
      n_box A (m i) = b /\ rep m (Some i) l /\ rep m (Some i) r
  end.
Lemma rep_ext m m' par s : (forall j, In j (ids s) -> m' j = m j) -> rep m par s -> rep m' par s.
Proof.
  revert par. induction s as [i b | i b h l IHl r IHr]; intros par H; cbn [rep ids] in *.
  - rewrite (H i) by (left; reflexivity). auto.
  - rewrite (H i) by (left; reflexivity). intros (H1 & H2 & H3 & H4 & H5 & H6 & H7).
    repeat (split; [assumption | ]). split.
    + apply IHl; [ | exact H6]. intros j Hj. apply H. right. apply in_or_app. auto.
    + apply IHr; [ | exact H7]. intros j Hj. apply H. right. apply in_or_app. auto.
Qed.
(** The same below a different parent. *)
Lemma rep_move m m' par par' s :
  NoDup (ids s) -> m' (idx s) = set_parent A par' (m (idx s)) -> (forall j, In j (ids s) -> j <> idx s -> m' j = m j) ->
  rep m par s -> rep m' par' s.
Proof.
  destruct s as [i b | i b h l r]; cbn [rep ids idx]; intros Hn H H'; rewrite H; cbn.
  - tauto.
  - intros (H1 & H2 & H3 & H4 & H5 & H6 & H7).
    inversion Hn as [ | ? ? Hni Hnn]; subst.
    repeat (split; [assumption || reflexivity | ]). split.
    + apply (rep_ext m); [ | exact H6]. intros j Hj. apply H'; [right; apply in_or_app; auto | ].
      intros ->. apply Hni, in_or_app; auto.
    + apply (rep_ext m); [ | exact H7]. intros j Hj. apply H'; [right; apply in_or_app; auto | ].
      intros ->. apply Hni, in_or_app; auto.
Qed.
Lemma rep_height m par s : rep m par s -> n_height A (m (idx s)) = ht s.
Proof. destruct s; cbn; tauto. Qed.
Lemma rep_box m par s : rep m par s -> n_box A (m (idx s)) = box_of s.
Proof. destruct s; cbn; tauto. Qed.
Lemma rep_parent m par s : rep m par s -> n_parent A (m (idx s)) = par.
Proof. destruct s; cbn; tauto. Qed.

(** The way from a node up to the root: which child it is, the node, its box and height, the other child. *)
Record frame := Fr { f_left : bool; f_i : nat; f_b : box; f_h : Z; f_other : bt }.
Definition par_of (p : list frame) : option nat := match p with [] => None | f :: _ => Some (f_i f) end.
Fixpoint top (c : nat) (p : list frame) : nat := match p with [] => c | f :: p' => top (f_i f) p' end.
Fixpoint pids (p : list frame) : list nat :=
  match p with [] => [] | f :: p' => f_i f :: ids (f_other f) ++ pids p' end.
Fixpoint pleaves (p : list frame) : list (nat * box) :=
  match p with [] => [] | f :: p' => leaves (f_other f) ++ pleaves p' end.
Fixpoint repp (m : nat -> nd) (c : nat) (p : list frame) : Prop :=
  match p with
  | [] => True
  | f :: p' =>
      n_parent A (m (f_i f)) = par_of p' /\
      n_left A (m (f_i f)) = Some (if f_left f then c else idx (f_other f)) /\
      n_right A (m (f_i f)) = Some (if f_left f then idx (f_other f) else c) /\
      n_height A (m (f_i f)) = f_h f /\ n_box A (m (f_i f)) = f_b f /\
      rep m (Some (f_i f)) (f_other f) /\ repp m (f_i f) p'
  end.
Lemma repp_ext m m' c p : (forall j, In j (pids p) -> m' j = m j) -> repp m c p -> repp m' c p.
Proof.
  revert c. induction p as [ | f p IH]; intros c H; cbn [repp pids] in *; [auto | ].
  rewrite (H (f_i f)) by (left; reflexivity). intros (H1 & H2 & H3 & H4 & H5 & H6 & H7).
  repeat (split; [assumption | ]). split.
  - apply (rep_ext m); [ | exact H6]. intros j Hj. apply H. right. apply in_or_app. auto.
  - apply IH; [ | exact H7]. intros j Hj. apply H. right. apply in_or_app. auto.
Qed.
Definition wfp (p : list frame) : Prop := Forall (fun f => wf (f_other f)) p.

(** Steps of the model. *)
Lemma rd_ok i m c n f r mp : i < c -> rd A (Tree A m c n f r mp) i = Some (m i).
Proof. intros H. unfold rd. cbn [t_cap t_nodes]. rewrite (proj2 (Nat.ltb_lt _ _) H). reflexivity. Qed.
Lemma wr_step {R} i g m c n f r mp (k : st -> option R) (Q : R -> Prop) :
  i < c ->
  (forall m', m' i = g (m i) -> (forall j, j <> i -> m' j = m j) -> exists x, k (Tree A m' c n f r mp) = Some x /\ Q x) ->
  exists x, bind (wr A i g (Tree A m c n f r mp)) k = Some x /\ Q x.
Proof.
  intros H K. unfold wr. cbn [t_cap t_nodes]. rewrite (proj2 (Nat.ltb_lt _ _) H). cbn. apply K.
  - unfold upd. rewrite Nat.eqb_refl. reflexivity.
  - intros j Hj. unfold upd. apply Nat.eqb_neq in Hj. rewrite Hj. reflexivity.
Qed.
Lemma wr_last i g m c n f r mp (Q : st -> Prop) :
  i < c ->
  (forall m', m' i = g (m i) -> (forall j, j <> i -> m' j = m j) -> Q (Tree A m' c n f r mp)) ->
  exists x, wr A i g (Tree A m c n f r mp) = Some x /\ Q x.
Proof.
  intros H K. unfold wr. cbn [t_cap t_nodes]. rewrite (proj2 (Nat.ltb_lt _ _) H). eexists. split; [reflexivity | ].
  cbn. apply K.
  - unfold upd. rewrite Nat.eqb_refl. reflexivity.
  - intros j Hj. unfold upd. apply Nat.eqb_neq in Hj. rewrite Hj. reflexivity.
Qed.
Lemma merge_of_ok a b m c n f r mp : a < c -> b < c ->
  merge_of A (Tree A m c n f r mp) a b = Some (merge A (n_box A (m a)) (n_box A (m b))).
Proof. intros Ha Hb. unfold merge_of. rewrite !rd_ok by assumption. reflexivity. Qed.
Lemma height_of_ok a b m c n f r mp : a < c -> b < c ->
  height_of A (Tree A m c n f r mp) a b = Some (1 + Z.max (n_height A (m a)) (n_height A (m b)))%Z.
Proof. intros Ha Hb. unfold height_of. rewrite !rd_ok by assumption. reflexivity. Qed.

Lemma rotate_ok rup i u keep give other m c n f r mp :
  i < c -> u < c -> keep < c -> give < c -> other < c ->
  NoDup [i; u; keep; give; other] ->
  exists t, rotate A rup i u keep give other (Tree A m c n f r mp) = Some t /\
    exists m', t = Tree A m' c n f r mp /\
      let b1 := merge A (n_box A (m other)) (n_box A (m give)) in
      let h1 := (1 + Z.max (n_height A (m other)) (n_height A (m give)))%Z in
      m' i = set_height A h1 (set_box A b1 ((if rup then set_right A else set_left A) (Some give) (m i))) /\
      m' u = set_height A (1 + Z.max h1 (n_height A (m keep))) (set_box A (merge A b1 (n_box A (m keep))) (set_right A (Some keep) (m u))) /\
      m' give = set_parent A (Some i) (m give) /\
      (forall j, j <> i -> j <> u -> j <> give -> m' j = m j).
Proof.
  intros Hi Hu Hk Hg Ho Hn.
  assert (Hd : i <> u /\ i <> keep /\ i <> give /\ i <> other /\ u <> keep /\ u <> give /\ u <> other /\ keep <> give /\
               keep <> other /\ give <> other).
  { repeat match goal with H : NoDup (_ :: _) |- _ => inversion H; clear H; subst end. cbn in *. intuition congruence. }
  clear Hn. destruct Hd as (D1 & D2 & D3 & D4 & D5 & D6 & D7 & D8 & D9 & D10).
  unfold rotate.
  apply wr_step; [exact Hu | intros m1 E1 N1].
  apply wr_step; [exact Hi | intros m2 E2 N2].
  apply wr_step; [exact Hg | intros m3 E3 N3].
  rewrite merge_of_ok by assumption. cbn [bind].
  apply wr_step; [exact Hi | intros m4 E4 N4].
  rewrite merge_of_ok by assumption. cbn [bind].
  apply wr_step; [exact Hu | intros m5 E5 N5].
  rewrite height_of_ok by assumption. cbn [bind].
  apply wr_step; [exact Hi | intros m6 E6 N6].
  rewrite height_of_ok by assumption. cbn [bind].
  apply wr_last; [exact Hu | intros m7 E7 N7].
  exists m7. split; [reflexivity | ]. cbv zeta.
  rewrite (N5 other), (N5 give), (N4 other), (N4 give) in E6 by congruence.
  rewrite (N3 other), E3, (N2 other), (N2 give), (N1 other), (N1 give) in E6 by congruence.
  rewrite (N5 i), E4, (N3 other), E3, (N3 i), E2, (N2 other), (N2 give), (N1 other), (N1 give), (N1 i) in E6 by congruence.
  rewrite (N6 u), E5, (N4 u), (N3 u), (N2 u), E1, (N6 keep), (N5 keep), (N4 keep), (N3 keep), (N2 keep), (N1 keep), E4 in E7
    by congruence.
  rewrite (N3 other), E3, (N2 other), (N2 give), (N1 other), (N1 give) in E7 by congruence.
  split; [ | split; [ | split]].
  - rewrite N7, E6 by congruence. destruct rup; reflexivity.
  - rewrite E7, E6. destruct rup; reflexivity.
  - rewrite N7, N6, N5, N4, E3, N2, N1 by congruence. reflexivity.
  - intros j J1 J2 J3. rewrite N7, N6, N5, N4, N3, N2, N1 by congruence. reflexivity.
Qed.
Lemma replace_child_ok {R} old new p m c n f mp (k : st -> option R) (Q : R -> Prop) :
  repp m old p -> NoDup (old :: pids p) -> (forall j, In j (pids p) -> j < c) ->
  (forall m', repp m' new p -> (forall j, ~ In j (pids p) -> m' j = m j) ->
     (forall j, In j (pids p) -> par_of p <> Some j -> m' j = m j) ->
     (forall j, n_part A (m' j) = n_part A (m j)) ->
     exists x, k (Tree A m' c n f (Some (top new p)) mp) = Some x /\ Q x) ->
  exists x, bind (replace_child A (par_of p) old new (Tree A m c n f (Some (top old p)) mp)) k = Some x /\ Q x.
Proof.
  intros Hr Hn Hc K. destruct p as [ | fr p]; cbn [replace_child par_of top].
  - cbn. apply K; auto.
  - assert (Hlt : f_i fr < c) by (apply Hc; left; reflexivity).
    rewrite rd_ok by exact Hlt. cbn [bind].
    cbn [repp] in Hr. destruct Hr as (H1 & H2 & H3 & H4 & H5 & H6 & H7).
    rewrite H2. cbn [is_index].
    assert (Ho : idx (f_other fr) <> old).
    { intros E. inversion Hn as [ | ? ? Hni _]; subst. apply Hni. cbn [pids]. right. apply in_or_app. left. apply idx_ids. }
    assert (Hnf : NoDup (f_i fr :: ids (f_other fr) ++ pids p)) by (inversion Hn; assumption).
    inversion Hnf as [ | ? ? Hni _]; subst.
    assert (Fin : forall g, g = (if f_left fr then set_left A (Some new) else set_right A (Some new)) ->
       exists x, bind (wr A (f_i fr) g (Tree A m c n f (Some (top (f_i fr) p)) mp)) k = Some x /\ Q x).
    { intros g ->. apply wr_step; [exact Hlt | intros m' E N].
      assert (Hj : forall j, In j (ids (f_other fr) ++ pids p) -> m' j = m j).
      { intros j Hj. apply N. intros ->. exact (Hni Hj). }
      apply K.
      - cbn [repp]. rewrite E. destruct (f_left fr); cbn; repeat (split; [assumption || reflexivity | ]);
        (split; [eapply rep_ext; [ | exact H6] | eapply repp_ext; [ | exact H7]]; intros j J; apply Hj, in_or_app; auto).
      - intros j J. apply N. intros ->. apply J. left. reflexivity.
      - intros j [<- | J] Hp; [cbn [par_of] in Hp; congruence | apply Hj, J].
      - intros j. destruct (Nat.eq_dec j (f_i fr)) as [-> | J]; [rewrite E; destruct (f_left fr); reflexivity | rewrite N by exact J; reflexivity]. }
    destruct (f_left fr) eqn:Ef.
    + rewrite Nat.eqb_refl. apply Fin. reflexivity.
    + apply Nat.eqb_neq in Ho. rewrite Ho. apply Fin. reflexivity.
Qed.

(** What balancing gives: another tree in the same place. *)
Definition balanced (m m' : nat -> nd) (l r : bt) (i : nat) (p : list frame) (s : bt) : Prop :=
  match s with
  | Lf _ _ => False
  | Br _ _ _ l' r' => wf l' /\ wf r'
  end /\
  rep m' (par_of p) s /\ repp m' (idx s) p /\
  Permutation (ids s) (i :: ids l ++ ids r) /\ Permutation (leaves s) (leaves l ++ leaves r) /\
  (forall j, n_part A (m' j) = n_part A (m j)) /\
  (forall j, ~ In j (i :: ids l ++ ids r ++ pids p) -> m' j = m j).

Lemma NoDup_app_inv {X} (a b : list X) : NoDup (a ++ b) -> NoDup a /\ NoDup b /\ (forall x, In x a -> In x b -> False).
Proof.
  induction a as [ | x a IH]; cbn; intros H.
  - split; [constructor | split; [exact H | intros x []]].
  - inversion H as [ | ? ? Hn Hd]; subst. destruct (IH Hd) as (H1 & H2 & H3). split; [ | split; [exact H2 | ]].
    + constructor; [intros Hx; apply Hn, in_or_app; auto | exact H1].
    + intros y [<- | Hy] Hb; [apply Hn, in_or_app; auto | exact (H3 y Hy Hb)].
Qed.

Lemma rotate_up_ok (rup : bool) i b h o u ub uh ul ur p m c n f mp :
  let U := Br u ub uh ul ur in
  let l := if rup then o else U in
  let r := if rup then U else o in
  rep m (par_of p) (Br i b h l r) -> repp m i p -> wf o -> wf U ->
  NoDup (i :: ids l ++ ids r ++ pids p) -> (forall j, In j (i :: ids l ++ ids r ++ pids p) -> j < c) ->
  exists x, rotate_up A rup i u (idx o) (Tree A m c n f (Some (top i p)) mp) = Some x /\
    exists s m', x = (idx s, Tree A m' c n f (Some (top (idx s) p)) mp) /\ balanced m m' l r i p s.
Proof.
  intros U l r Hrep Hp Ho HU Hn Hc.
  assert (Hn' : NoDup (i :: u :: ids ul ++ ids ur ++ ids o ++ pids p)).
  { eapply Permutation_NoDup; [ | exact Hn]. apply perm_skip. subst l r U. destruct rup; cbn [ids].
    - perm.
    - perm. }
  assert (Hin : forall j, In j (i :: u :: ids ul ++ ids ur ++ ids o ++ pids p) <-> In j (i :: ids l ++ ids r ++ pids p)).
  { intros j. subst l r U. destruct rup; cbn [ids]; rewrite ?in_app_iff; cbn [In]; rewrite ?in_app_iff; cbn [In]; rewrite ?in_app_iff; tauto. }
  assert (Hc' : forall j, In j (i :: u :: ids ul ++ ids ur ++ ids o ++ pids p) -> j < c) by (intros j J; apply Hc, Hin, J).
  assert (Hi : i < c) by (apply Hc'; cbn; auto).
  assert (Hu : u < c) by (apply Hc'; cbn; auto).
  assert (Hul : idx ul < c) by (apply Hc'; cbn; rewrite !in_app_iff; pose proof (idx_ids ul); auto).
  assert (Hur : idx ur < c) by (apply Hc'; cbn; rewrite !in_app_iff; pose proof (idx_ids ur); auto).
  assert (Hoc : idx o < c) by (apply Hc'; cbn; rewrite !in_app_iff; pose proof (idx_ids o); auto 6).
  assert (RU : rep m (Some i) U /\ rep m (Some i) o).
  { subst l r U. cbn [rep] in Hrep. destruct rup; cbn [rep idx] in Hrep |- *; tauto. }
  destruct RU as [RU Ro]. cbn [rep U] in RU. destruct RU as (U1 & U2 & U3 & U4 & U5 & U6 & U7).
  assert (Ri : n_parent A (m i) = par_of p /\ n_left A (m i) = Some (idx l) /\ n_right A (m i) = Some (idx r)).
  { cbn [rep] in Hrep. tauto. }
  destruct Ri as (R1 & R2 & R3).
  (* separation *)
  inversion Hn' as [ | ? ? Ni Hn1]; subst. inversion Hn1 as [ | ? ? Nu Hn2]; subst.
  apply NoDup_app_inv in Hn2. destruct Hn2 as (Dul & Hn2 & Xul).
  apply NoDup_app_inv in Hn2. destruct Hn2 as (Dur & Hn2 & Xur).
  apply NoDup_app_inv in Hn2. destruct Hn2 as (Do & Dp & Xo).
  assert (Niu : i <> u) by (intros ->; apply Ni; left; reflexivity).
  assert (NI : forall j, In j (ids ul) \/ In j (ids ur) \/ In j (ids o) \/ In j (pids p) -> j <> i).
  { intros j J ->. apply Ni. right. rewrite !in_app_iff. exact J. }
  assert (NU : forall j, In j (ids ul) \/ In j (ids ur) \/ In j (ids o) \/ In j (pids p) -> j <> u).
  { intros j J ->. apply Nu. rewrite !in_app_iff. exact J. }
  assert (Xul' : forall j, In j (ids ul) -> In j (ids ur) \/ In j (ids o) \/ In j (pids p) -> False).
  { intros j J J'. apply (Xul j J). rewrite !in_app_iff. exact J'. }
  assert (Xur' : forall j, In j (ids ur) -> In j (ids o) \/ In j (pids p) -> False).
  { intros j J J'. apply (Xur j J). rewrite !in_app_iff. exact J'. }
  clear Xul Xur Hn1 Ni Nu.
  unfold rotate_up. rewrite rd_ok by exact Hu. cbn [bind]. rewrite U2, U3. rewrite rd_ok by exact Hi. cbn [bind].
  apply wr_step; [exact Hu | intros m1 E1 N1].
  apply wr_step; [exact Hi | intros m2 E2 N2].
  rewrite R1.
  apply replace_child_ok.
  { eapply repp_ext; [ | exact Hp]. intros j J. rewrite N2, N1; auto. }
  { constructor; [ | exact Dp]. intros J. specialize (NI i). apply NI; auto. }
  { intros j J. apply Hc'. cbn. rewrite !in_app_iff. auto 6. }
  intros m3 R3' N3 _ P3.
  rewrite rd_ok by exact Hul. cbn [bind]. rewrite rd_ok by exact Hur. cbn [bind].
  (* the two rotations *)
  assert (Main : forall keep give,
     (keep = ul /\ give = ur) \/ (keep = ur /\ give = ul) ->
     exists x, (bind (rotate A rup i u (idx keep) (idx give) (idx o) (Tree A m3 c n f (Some (top u p)) mp)) (fun t => Some (u, t))) = Some x /\
     exists s m', x = (idx s, Tree A m' c n f (Some (top (idx s) p)) mp) /\ balanced m m' l r i p s).
  { intros keep give Hkg.
    assert (Kc : idx keep < c /\ idx give < c) by (destruct Hkg as [[-> ->] | [-> ->]]; auto).
    assert (Kr : rep m (Some u) keep /\ rep m (Some u) give) by (destruct Hkg as [[-> ->] | [-> ->]]; auto).
    assert (Kw : wf keep /\ wf give) by (cbn [U wf] in HU; destruct Hkg as [[-> ->] | [-> ->]]; tauto).
    assert (Kd : NoDup (ids keep) /\ NoDup (ids give)) by (destruct Hkg as [[-> ->] | [-> ->]]; auto).
    assert (Kin : forall j, In j (ids keep) \/ In j (ids give) <-> In j (ids ul) \/ In j (ids ur))
      by (destruct Hkg as [[-> ->] | [-> ->]]; intros j; tauto).
    assert (Kx : forall j, In j (ids keep) -> In j (ids give) -> False).
    { destruct Hkg as [[-> ->] | [-> ->]]; intros j J J'; eapply Xul'; eauto. }
    assert (Kx' : forall j, In j (ids keep) \/ In j (ids give) -> In j (ids o) \/ In j (pids p) -> False).
    { intros j J J'. apply Kin in J. destruct J as [J | J]; [eapply Xul' | eapply Xur']; eauto. }
    assert (Kp : Permutation (ids keep ++ ids give) (ids ul ++ ids ur)).
    { destruct Hkg as [[-> ->] | [-> ->]]; [reflexivity | apply Permutation_app_comm]. }
    assert (Kl : Permutation (leaves keep ++ leaves give) (leaves ul ++ leaves ur)).
    { destruct Hkg as [[-> ->] | [-> ->]]; [reflexivity | apply Permutation_app_comm]. }
    assert (KNI : forall j, In j (ids keep) \/ In j (ids give) -> j <> i /\ j <> u).
    { intros j J. apply Kin in J. split; [apply NI | apply NU]; tauto. }
    clear Hkg Xul' Xur' U6 U7 U2 U3.
    pose proof (idx_ids keep) as Ik. pose proof (idx_ids give) as Ig. pose proof (idx_ids o) as Io.
    destruct (rotate_ok rup i u (idx keep) (idx give) (idx o) m3 c n f (Some (top u p)) mp) as (t & Et & m4 & -> & E4i & E4u & E4g & N4);
      [exact Hi | exact Hu | tauto | tauto | exact Hoc | | ].
    { repeat constructor; cbn; intros J; repeat (destruct J as [J | J]); try exact J; try congruence;
        try (destruct (KNI _ (or_introl Ik)); congruence); try (destruct (KNI _ (or_intror Ig)); congruence);
        try (specialize (NI (idx o)); specialize (NU (idx o)); intuition congruence).
      - apply (Kx (idx keep)); [exact Ik | rewrite J at 1; exact Ig] || (apply (Kx (idx keep) Ik); rewrite <- J; exact Ig).
      - apply (Kx' (idx keep) (or_introl Ik)). left. rewrite <- J. exact Io.
      - apply (Kx' (idx give) (or_intror Ig)). left. rewrite <- J. exact Io. }
    rewrite Et. cbn [bind]. eexists. split; [reflexivity | ].
    cbv zeta in E4i, E4u.
    (* memory before the rotation *)
    assert (M3 : forall j, j <> i -> j <> u -> ~ In j (pids p) -> m3 j = m j).
    { intros j J1 J2 J3. rewrite N3, N2, N1 by assumption. reflexivity. }
    assert (M3i : m3 i = set_parent A (Some u) (m i)).
    { rewrite N3, E2, N1; [reflexivity | exact Niu | ]. intros J. apply (NI i); auto. }
    assert (M3u : m3 u = set_parent A (par_of p) (set_left A (Some i) (m u))).
    { rewrite N3, N2, E1; [rewrite ?R1; reflexivity | congruence | ]. intros J. apply (NU u); auto. }
    assert (M3k : forall j, In j (ids keep) \/ In j (ids give) -> m3 j = m j).
    { intros j J. destruct (KNI j J). apply M3; [assumption | assumption | ]. intros J'. apply (Kx' j J). auto. }
    assert (M3o : forall j, In j (ids o) -> m3 j = m j).
    { intros j J. apply M3; [apply NI | apply NU | ]; auto. intros J'. exact (Xo j J J'). }
    rewrite (M3k (idx give)), (M3k (idx keep)), (M3o (idx o)) in E4u by auto.
    rewrite (M3k (idx give)), (M3o (idx o)) in E4i by auto.
    rewrite (M3k (idx give)) in E4g by auto.
    rewrite (rep_box m (Some u) keep), (rep_height m (Some u) keep), (rep_box m (Some u) give), (rep_height m (Some u) give),
      (rep_box m (Some i) o), (rep_height m (Some i) o) in E4u by tauto.
    rewrite (rep_box m (Some u) give), (rep_height m (Some u) give),
      (rep_box m (Some i) o), (rep_height m (Some i) o) in E4i by tauto.
    set (b1 := merge A (box_of o) (box_of give)) in *.
    set (h1 := (1 + Z.max (ht o) (ht give))%Z) in *.
    set (b2 := merge A b1 (box_of keep)) in *.
    set (h2 := (1 + Z.max h1 (ht keep))%Z) in *.
    exists (Br u b2 h2 (Br i b1 h1 (if rup then o else give) (if rup then give else o)) keep), m4.
    split; [reflexivity | ].
    assert (Rk : rep m4 (Some u) keep).
    { eapply rep_ext; [ | apply Kr]. intros j J. destruct (KNI j (or_introl J)). rewrite N4, M3k; auto.
      intros ->. exact (Kx _ J Ig). }
    assert (Rg : rep m4 (Some i) give).
    { apply (rep_move m _ (Some u)); [apply Kd | exact E4g | | apply Kr]. intros j J J'. destruct (KNI j (or_intror J)).
      rewrite N4, M3k; auto. }
    assert (Ro4 : rep m4 (Some i) o).
    { eapply rep_ext; [ | exact Ro]. intros j J. rewrite N4, M3o; auto. intros ->. apply (Kx' (idx give) (or_intror Ig)). auto. }
    unfold balanced. split; [ | split; [ | split; [ | split; [ | split; [ | split]]]]].
    - split; [ | apply Kw]. cbn [wf].
      assert (V : valid b1) by (apply merge_valid, wf_valid, Ho).
      destruct rup; (split; [exact V | ]).
      + split; [apply merge_l | ]. split; [apply merge_r | ]. split; [reflexivity | tauto].
      + split; [apply merge_r | ]. split; [apply merge_l | ]. split; [unfold h1; lia | tauto].
    - cbn [rep idx]. rewrite E4u, E4i, M3u, M3i. cbn. subst l r U. destruct rup; cbn; rewrite ?R2, ?R3; cbn [idx]; tauto.
    - cbn [idx]. eapply repp_ext; [ | exact R3']. intros j J. apply N4; [apply NI | apply NU | ]; auto.
      intros ->. apply (Kx' (idx give) (or_intror Ig)). auto.
    - cbn [ids]. subst l r U. destruct rup; cbn [ids].
      + transitivity (i :: u :: ids o ++ (ids keep ++ ids give)); [perm | rewrite Kp; perm].
      + transitivity (i :: u :: ids o ++ (ids keep ++ ids give)); [perm | rewrite Kp; perm].
    - cbn [leaves]. subst l r U. destruct rup; cbn [leaves].
      + transitivity (leaves o ++ (leaves keep ++ leaves give)); [perm | rewrite Kl; perm].
      + transitivity (leaves o ++ (leaves keep ++ leaves give)); [perm | rewrite Kl; perm].
    - intros j. destruct (Nat.eq_dec j i) as [-> | Ji]; [rewrite E4i, M3i; destruct rup; reflexivity | ].
      destruct (Nat.eq_dec j u) as [-> | Ju]; [rewrite E4u, M3u; reflexivity | ].
      destruct (Nat.eq_dec j (idx give)) as [-> | Jg]; [rewrite E4g; reflexivity | ].
      rewrite N4, P3, N2, N1 by assumption. reflexivity.
    - intros j J. assert (J' : ~ In j (i :: u :: ids ul ++ ids ur ++ ids o ++ pids p)) by (intros J'; apply J, Hin, J').
      cbn [In] in J'. rewrite !in_app_iff in J'. specialize (Kin j).
      rewrite N4, M3; try tauto; intros ->; try tauto. }
  destruct (n_height A (m3 (idx ur)) <? n_height A (m3 (idx ul)))%Z; apply Main; auto.
Qed.
End S.
