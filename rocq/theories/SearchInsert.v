(** Proofs about the search tree: insertion. *)
From Coq Require Import List Arith Bool ZArith Lia Permutation.
From Verif Require Import StlModel SearchModel Perm SearchProofs.
Import ListNotations.

Section S.
Variable A : arith.
Hypothesis HA : ordered A.
Notation D := (num A).
Notation box := (aabb A).
Notation nd := (node A).
Notation st := (tree A).
Notation bt := (bt A).
Notation rep := (rep A). Notation repp := (repp A). Notation wf := (wf A). Notation wfp := (wfp A).
Notation ids := (ids A). Notation idx := (idx A). Notation leaves := (leaves A). Notation pids := (pids A).
Notation pleaves := (pleaves A). Notation par_of := (par_of A). Notation top := (top A). Notation ht := (ht A).
Notation box_of := (box_of A). Notation frame := (frame A).
Notation balanced := (balanced A).

Lemma balance_ok i b h l r p m c n f mp :
  rep m (par_of p) (Br A i b h l r) -> repp m i p -> wf l -> wf r ->
  NoDup (i :: ids l ++ ids r ++ pids p) -> (forall j, In j (i :: ids l ++ ids r ++ pids p) -> j < c) ->
  exists x, balance A i (Tree A m c n f (Some (top i p)) mp) = Some x /\
    exists s m', x = (idx s, Tree A m' c n f (Some (top (idx s) p)) mp) /\ balanced m m' l r i p s.
Proof.
  intros Hrep Hp Hl Hr Hn Hc.
  assert (Same : balanced m m l r i p (Br A i b h l r)).
  { unfold SearchProofs.balanced. repeat (split; [solve [auto | reflexivity] | ]). auto. }
  assert (Same' : exists x, Some (i, Tree A m c n f (Some (top i p)) mp) = Some x /\
    exists s m', x = (idx s, Tree A m' c n f (Some (top (idx s) p)) mp) /\ balanced m m' l r i p s).
  { eexists. split; [reflexivity | ]. exists (Br A i b h l r), m. split; [reflexivity | exact Same]. }
  unfold balance. rewrite rd_ok by (apply Hc; left; reflexivity). cbn [bind].
  pose proof Hrep as Hrep'. cbn [SearchProofs.rep] in Hrep'. destruct Hrep' as (H1 & H2 & H3 & H4 & H5 & H6 & H7).
  destruct (is_leaf A (m i) || (n_height A (m i) <? 2)%Z); [exact Same' | ].
  rewrite H2, H3.
  rewrite rd_ok by (apply Hc; right; apply in_or_app; left; apply idx_ids). cbn [bind].
  rewrite rd_ok by (apply Hc; right; apply in_or_app; right; apply in_or_app; left; apply idx_ids). cbn [bind].
  rewrite (rep_height A m (Some i) r), (rep_height A m (Some i) l) by assumption.
  pose proof (wf_ht A _ Hl). pose proof (wf_ht A _ Hr).
  destruct (1 <? ht r - ht l)%Z eqn:E1.
  { apply Z.ltb_lt in E1. destruct r as [u ub | u ub uh ul ur]; [cbn in E1; lia | ].
    apply (rotate_up_ok A HA true i b h l u ub uh ul ur p m c n f mp); assumption. }
  destruct (ht r - ht l <? -1)%Z eqn:E2; [ | exact Same'].
  apply Z.ltb_lt in E2. destruct l as [u ub | u ub uh ul ur]; [cbn in E2; lia | ].
  apply (rotate_up_ok A HA false i b h r u ub uh ul ur p m c n f mp); assumption.
Qed.

(** A whole tree in the pool. *)
Definition walked (m m' : nat -> nd) (l r : bt) (i : nat) (p : list frame) (s : bt) : Prop :=
  wf s /\ rep m' None s /\ Permutation (ids s) (i :: ids l ++ ids r ++ pids p) /\
  Permutation (leaves s) (leaves l ++ leaves r ++ pleaves p) /\
  (forall j, n_part A (m' j) = n_part A (m j)) /\
  (forall j, ~ In j (i :: ids l ++ ids r ++ pids p) -> m' j = m j).

Lemma walk_up_ok p : forall fuel i b h l r m c n f mp,
  (length p < fuel)%nat ->
  rep m (par_of p) (Br A i b h l r) -> repp m i p -> wf l -> wf r -> wfp p ->
  NoDup (i :: ids l ++ ids r ++ pids p) -> (forall j, In j (i :: ids l ++ ids r ++ pids p) -> j < c) ->
  (1 <= fuel)%nat ->
  exists s m', walk_up A (S fuel) (Some i) (Tree A m c n f (Some (top i p)) mp) = Some (Tree A m' c n f (Some (idx s)) mp) /\
    walked m m' l r i p s.
Proof.
  induction p as [ | fr p IH]; intros fuel i b h l r m c n f mp Hf Hrep Hp Hl Hr Hw Hn Hc Hf1.
  all: destruct fuel as [ | fuel]; [lia | ].
  all: destruct (balance_ok i b h l r _ m c n f mp Hrep Hp Hl Hr Hn Hc) as (x & Ex & s & m1 & -> & Bal).
  all: cbn [walk_up]; rewrite Ex; cbn [bind fst snd].
  all: destruct Bal as (B1 & B2 & B3 & B4 & B5 & B6 & B7).
  all: destruct s as [ | i' b' h' l' r']; [contradiction | ]; destruct B1 as [Wl Wr].
  all: cbn [SearchProofs.ids] in B4; cbn [SearchProofs.leaves] in B5; cbn [SearchProofs.idx] in *.
  1: assert (Hn' : NoDup (i' :: ids l' ++ ids r' ++ pids []))
     by (eapply Permutation_NoDup; [ | exact Hn]; cbn [SearchProofs.pids]; rewrite !app_nil_r; symmetry; exact B4).
  2: assert (Hn' : NoDup (i' :: ids l' ++ ids r' ++ pids (fr :: p)))
     by (eapply Permutation_NoDup; [ | exact Hn]; symmetry; rewrite app_assoc, app_comm_cons, B4; perm).
  all: assert (Hin : forall j, In j (i' :: ids l' ++ ids r') <-> In j (i :: ids l ++ ids r))
     by (intros j; split; apply Permutation_in; [exact B4 | symmetry; exact B4]).
  all: assert (Hc0 : forall j, In j (i' :: ids l' ++ ids r') -> j < c)
     by (intros j J; apply Hin in J; apply Hc; cbn [In] in *; rewrite !in_app_iff in *; tauto).
  all: assert (Hi' : i' < c) by (apply Hc0; left; reflexivity).
  all: assert (Hl' : idx l' < c) by (apply Hc0; right; apply in_or_app; left; apply idx_ids).
  all: assert (Hr' : idx r' < c) by (apply Hc0; right; apply in_or_app; right; apply idx_ids).
  all: pose proof B2 as B2'; cbn [SearchProofs.rep] in B2'; destruct B2' as (C1 & C2 & C3 & C4 & C5 & C6 & C7).
  all: rewrite rd_ok by exact Hi'; cbn [bind]; rewrite C2, C3.
  all: rewrite height_of_ok by assumption; cbn [bind].
  all: unfold wr at 1; cbn [t_cap t_nodes]; rewrite (proj2 (Nat.ltb_lt _ _) Hi'); cbn [bind]; unfold with_nodes at 1 2; cbn [t_cap t_count t_free t_root t_map t_nodes].
  all: rewrite merge_of_ok by assumption; cbn [bind].
  all: unfold wr at 1; cbn [t_cap t_nodes]; rewrite (proj2 (Nat.ltb_lt _ _) Hi'); cbn [bind]; unfold with_nodes at 1 2; cbn [t_cap t_count t_free t_root t_map t_nodes].
  all: inversion Hn' as [ | ? ? Ni Hn1]; subst.
  all: assert (Il : idx l' <> i') by (intros E; apply Ni; rewrite <- E; apply in_or_app; left; apply idx_ids).
  all: assert (Ir : idx r' <> i') by (intros E; apply Ni; rewrite <- E; apply in_or_app; right; apply in_or_app; left; apply idx_ids).
  all: set (h2 := (1 + Z.max (n_height A (m1 (idx l'))) (n_height A (m1 (idx r'))))%Z).
  all: set (m2 := upd A (upd A m1 i' _) i' _).
  all: assert (M2i : m2 i' = set_box A (merge A (box_of l') (box_of r')) (set_height A (1 + Z.max (ht l') (ht r')) (m1 i')))
     by (unfold m2, upd; rewrite Nat.eqb_refl; rewrite (proj2 (Nat.eqb_neq _ _) Il), (proj2 (Nat.eqb_neq _ _) Ir);
         unfold h2; rewrite (rep_box A m1 (Some i') l'), (rep_box A m1 (Some i') r'), (rep_height A m1 (Some i') l'), (rep_height A m1 (Some i') r') by assumption;
         reflexivity).
  all: assert (M2 : forall j, j <> i' -> m2 j = m1 j) by (intros j J; unfold m2, upd; rewrite (proj2 (Nat.eqb_neq _ _) J); reflexivity).
  all: clearbody m2; clear h2.
  all: set (b2 := merge A (box_of l') (box_of r')) in *; set (h2 := (1 + Z.max (ht l') (ht r'))%Z) in *.
  all: assert (Wn : wf (Br A i' b2 h2 l' r'))
     by (cbn [SearchProofs.wf]; split; [apply merge_valid, (wf_valid A _ Wl); exact HA | ]; split; [apply merge_l, HA | ];
         split; [apply merge_r, HA | ]; split; [reflexivity | split; assumption]).
  1: assert (Rn : rep m2 None (Br A i' b2 h2 l' r')).
  3: assert (Rn : rep m2 (par_of (fr :: p)) (Br A i' b2 h2 l' r')).
  1, 3: cbn [SearchProofs.rep]; rewrite M2i; cbn; repeat (split; [assumption || reflexivity | ]);
     (split; [eapply rep_ext; [ | exact C6] | eapply rep_ext; [ | exact C7]]); intros j J; apply M2; intros ->; apply Ni;
     rewrite !in_app_iff; tauto.
  all: assert (Pn : forall j, n_part A (m2 j) = n_part A (m j))
     by (intros j; rewrite <- B6; destruct (Nat.eq_dec j i') as [-> | J]; [rewrite M2i; reflexivity | rewrite M2 by exact J; reflexivity]).
  - (* the root *)
    rewrite C1. cbn [SearchProofs.par_of walk_up].
    exists (Br A i' b2 h2 l' r'), m2. split; [reflexivity | ]. unfold walked. cbn [SearchProofs.pids SearchProofs.pleaves SearchProofs.ids SearchProofs.leaves].
    rewrite !app_nil_r. split; [exact Wn | ]. split; [exact Rn | ]. split; [exact B4 | ]. split; [exact B5 | ]. split; [exact Pn | ].
    intros j J. rewrite M2; [apply B7 | ].
    + cbn [SearchProofs.pids]. rewrite app_nil_r. exact J.
    + intros ->. apply J, Hin. left. reflexivity.
  - (* a frame *)
    rewrite C1. cbn [SearchProofs.par_of].
    assert (B3' : repp m2 i' (fr :: p)).
    { eapply repp_ext; [ | exact B3]. intros j J. apply M2. intros ->. apply Ni. rewrite !in_app_iff. tauto. }
    cbn [SearchProofs.repp] in B3'. destruct B3' as (F1 & F2 & F3 & F4 & F5 & F6 & F7).
    inversion Hw as [ | ? ? Wo Wp]; subst.
    set (N := Br A i' b2 h2 l' r') in *.
    set (l2 := if f_left A fr then N else f_other A fr).
    set (r2 := if f_left A fr then f_other A fr else N).
    assert (Pid : Permutation (f_i A fr :: ids l2 ++ ids r2 ++ pids p) (i :: ids l ++ ids r ++ pids (fr :: p))).
    { transitivity ((i' :: ids l' ++ ids r') ++ pids (fr :: p)).
      - cbn [SearchProofs.pids]. unfold l2, r2. destruct (f_left A fr); cbn [SearchProofs.ids N]; perm.
      - rewrite B4. perm. }
    assert (Ple : Permutation (leaves l2 ++ leaves r2 ++ pleaves p) (leaves l ++ leaves r ++ pleaves (fr :: p))).
    { transitivity ((leaves l' ++ leaves r') ++ pleaves (fr :: p)).
      - cbn [SearchProofs.pleaves]. unfold l2, r2. destruct (f_left A fr); cbn [SearchProofs.leaves N]; perm.
      - rewrite B5. perm. }
    destruct (IH fuel (f_i A fr) (f_b A fr) (f_h A fr) l2 r2 m2 c n f mp) as (s & m3 & E & W).
    + cbn in Hf. lia.
    + cbn [SearchProofs.rep]. unfold l2, r2. destruct (f_left A fr); cbn [N SearchProofs.idx]; tauto.
    + exact F7.
    + unfold l2. destruct (f_left A fr); assumption.
    + unfold r2. destruct (f_left A fr); assumption.
    + exact Wp.
    + eapply Permutation_NoDup; [symmetry; exact Pid | exact Hn].
    + intros j J. apply Hc. eapply Permutation_in; [exact Pid | exact J].
    + cbn in Hf. lia.
    + exists s, m3. split.
      * cbn [SearchProofs.top]. exact E.
      * destruct W as (W1 & W2 & W3 & W4 & W5 & W6). unfold walked.
        split; [exact W1 | ]. split; [exact W2 | ]. split; [rewrite W3; exact Pid | ]. split; [rewrite W4; exact Ple | ].
        split; [intros j; rewrite W5; apply Pn | ].
        intros j J.
        assert (J' : ~ In j (f_i A fr :: ids l2 ++ ids r2 ++ pids p)).
        { intros J'. apply J. eapply Permutation_in; [exact Pid | exact J']. }
        rewrite W6 by exact J'. rewrite M2; [apply B7, J | ].
        intros ->. apply J. eapply Permutation_in; [exact Pid | ]. right. rewrite !in_app_iff.
        unfold l2, r2. destruct (f_left A fr); [left | right; left]; cbn; auto.
Qed.

(** The search for the sibling ends at a node of the tree. *)
Lemma descend_ok leaf m c n f rt mp : forall s fuel p,
  (length (ids s) <= fuel)%nat ->
  rep m (par_of p) s -> repp m (idx s) p -> wf s -> wfp p -> (forall j, In j (ids s) -> j < c) ->
  exists s' p', descend A fuel leaf (idx s) (Tree A m c n f rt mp) = Some (idx s') /\
    rep m (par_of p') s' /\ repp m (idx s') p' /\ wf s' /\ wfp p' /\
    Permutation (ids s' ++ pids p') (ids s ++ pids p) /\ Permutation (leaves s' ++ pleaves p') (leaves s ++ pleaves p) /\
    top (idx s') p' = top (idx s) p.
Proof.
  induction s as [i b | i b h l IHl r IHr]; intros fuel p Hf Hrep Hp Hw Hwp Hc.
  all: destruct fuel as [ | fuel]; [cbn in Hf; lia | ].
  all: cbn [descend SearchProofs.idx]; rewrite rd_ok by (apply Hc; left; reflexivity); cbn [bind].
  - exists (Lf A i b), p. pose proof Hrep as H. cbn [SearchProofs.rep] in H. destruct H as (_ & H & _). unfold is_leaf. rewrite H.
    repeat (split; [assumption || reflexivity | ]). reflexivity.
  - pose proof Hrep as H. cbn [SearchProofs.rep] in H. destruct H as (H1 & H2 & H3 & H4 & H5 & H6 & H7).
    unfold is_leaf at 1. rewrite H2, H3.
    cbn [SearchProofs.wf] in Hw. destruct Hw as (W1 & W2 & W3 & W4 & W5 & W6).
    rewrite rd_ok by (apply Hc; right; apply in_or_app; left; apply idx_ids). cbn [bind].
    rewrite rd_ok by (apply Hc; right; apply in_or_app; right; apply idx_ids). cbn [bind].
    cbn [SearchProofs.ids length] in Hf. rewrite app_length in Hf.
    destruct (_ && _).
    + exists (Br A i b h l r), p. split; [reflexivity | ]. split; [exact Hrep | ]. split; [exact Hp | ].
      split; [cbn; tauto | ]. split; [exact Hwp | ]. repeat (split; [reflexivity | ]). reflexivity.
    + destruct (ltb A _ _).
      * destruct (IHl fuel (Fr A true i b h r :: p)) as (s' & p' & E & R1 & R2 & R3 & R4 & R5 & R6 & R7).
        -- lia.
        -- exact H6.
        -- cbn. tauto.
        -- exact W5.
        -- constructor; assumption.
        -- intros j J. apply Hc. cbn. rewrite in_app_iff. auto.
        -- exists s', p'. split; [exact E | ]. repeat (split; [assumption | ]).
           split; [rewrite R5; cbn [SearchProofs.pids SearchProofs.ids f_i f_other]; perm | ].
           split; [rewrite R6; cbn [SearchProofs.pleaves SearchProofs.leaves f_other]; perm | ]. exact R7.
      * destruct (IHr fuel (Fr A false i b h l :: p)) as (s' & p' & E & R1 & R2 & R3 & R4 & R5 & R6 & R7).
        -- lia.
        -- exact H7.
        -- cbn. tauto.
        -- exact W6.
        -- constructor; assumption.
        -- intros j J. apply Hc. cbn. rewrite in_app_iff. auto.
        -- exists s', p'. split; [exact E | ]. repeat (split; [assumption | ]).
           split; [rewrite R5; cbn [SearchProofs.pids SearchProofs.ids f_i f_other]; perm | ].
           split; [rewrite R6; cbn [SearchProofs.pleaves SearchProofs.leaves f_other]; perm | ]. exact R7.
Qed.

(** The list of the free nodes. *)
Fixpoint freel (m : nat -> nd) (o : option nat) (L : list nat) : Prop :=
  match L with [] => o = None | i :: L' => o = Some i /\ freel m (n_next A (m i)) L' end.
Lemma freel_ext m m' o L : (forall j, In j L -> m' j = m j) -> freel m o L -> freel m' o L.
Proof.
  revert o. induction L as [ | i L IH]; intros o H; cbn; [auto | ].
  intros [H1 H2]. split; [exact H1 | ]. rewrite (H i) by (left; reflexivity). apply IH; [ | exact H2].
  intros j J. apply H. right. exact J.
Qed.
Definition pool (m : nat -> nd) (c n : nat) (f : option nat) (L : list nat) : Prop :=
  freel m f L /\ NoDup L /\ (forall j, In j L -> j < c) /\ n + length L = c /\ 1 <= c.

Lemma link_out k : forall i m j, j < i \/ i + k <= j -> link A k i m j = m j.
Proof.
  induction k as [ | k IH]; intros i m j H; cbn [link]; [reflexivity | ].
  rewrite IH by lia. unfold upd. rewrite (proj2 (Nat.eqb_neq j i)) by lia. reflexivity.
Qed.
Lemma link_in k : forall i m j, i <= j < i + k -> n_next A (link A k i m j) = Some (S j).
Proof.
  induction k as [ | k IH]; intros i m j H; [lia | ]. cbn [link].
  destruct (Nat.eq_dec j i) as [-> | J].
  - rewrite link_out by lia. unfold upd. rewrite Nat.eqb_refl. reflexivity.
  - apply IH. lia.
Qed.
Lemma link_all_out a b m j : j < a -> a <= b -> link_all A a b m j = m j.
Proof.
  intros H H'. unfold link_all, upd. rewrite (proj2 (Nat.eqb_neq j b)) by lia. apply link_out. lia.
Qed.
Lemma link_all_free a b m : a <= b -> freel (link_all A a b m) (Some a) (seq a (S (b - a))).
Proof.
  intros H. remember (link_all A a b m) as m' eqn:Em.
  assert (G1 : forall j, a <= j < b -> n_next A (m' j) = Some (S j)).
  { intros j J. subst m'. unfold link_all, upd. rewrite (proj2 (Nat.eqb_neq j b)) by lia. apply link_in. lia. }
  assert (G2 : n_next A (m' b) = None) by (subst m'; unfold link_all, upd; rewrite Nat.eqb_refl; reflexivity).
  clear Em. assert (K : forall k i, a <= i -> i + k = b -> freel m' (Some i) (seq i (S k))).
  { induction k as [ | k IH]; intros i Hi Hk.
    - cbn. split; [reflexivity | ]. replace i with b by lia. exact G2.
    - cbn [seq freel]. split; [reflexivity | ]. rewrite G1 by lia. apply IH; lia. }
  apply K; lia.
Qed.

Lemma alloc_ok m c n f rt mp L : pool m c n f L -> (Z.of_nat n < 2 ^ 31)%Z ->
  exists i m' c' f' L', alloc A (Tree A m c n f rt mp) = Some (i, Tree A m' c' (S n) f' rt mp) /\
    pool m' c' (S n) f' L' /\ c <= c' /\ i < c' /\ ~ In i L' /\
    n_left A (m' i) = None /\ n_right A (m' i) = None /\ n_parent A (m' i) = None /\ n_height A (m' i) = 0%Z /\
    (forall j, j < c -> ~ In j L -> j <> i /\ ~ In j L' /\ m' j = m j).
Proof.
  intros (P1 & P2 & P3 & P4 & P5) Hn.
  assert (Pop : forall m c f i L, freel m f (i :: L) -> NoDup (i :: L) -> (forall j, In j (i :: L) -> j < c) ->
     n + length (i :: L) = c ->
     exists m' f', (bind (Some (Tree A m c n f rt mp)) (fun t =>
        match t_free A t with
        | None => None
        | Some i =>
            bind (rd A t i) (fun nd => bind (wr A i (fun n => set_height A 0%Z (set_right A None (set_left A None (set_parent A None n)))) t)
             (fun t' => Some (i, Tree A (t_nodes A t') (t_cap A t') (S (t_count A t')) (n_next A nd) (t_root A t') (t_map A t'))))
        end)) = Some (i, Tree A m' c (S n) f' rt mp) /\ pool m' c (S n) f' L /\
       n_left A (m' i) = None /\ n_right A (m' i) = None /\ n_parent A (m' i) = None /\ n_height A (m' i) = 0%Z /\
       (forall j, j <> i -> m' j = m j)).
  { clear. intros m c f i L [-> F] Hn Hc Hl. cbn [bind t_free].
    assert (Hi : i < c) by (apply Hc; left; reflexivity).
    rewrite rd_ok by exact Hi. cbn [bind]. unfold wr. cbn [t_cap t_nodes]. rewrite (proj2 (Nat.ltb_lt _ _) Hi).
    unfold with_nodes. cbn [bind t_cap t_nodes t_count t_root t_map t_free].
    eexists. eexists. split; [reflexivity | ].
    inversion Hn as [ | ? ? Hni Hnd]; subst.
    assert (Out : forall j, j <> i -> upd A m i (set_height A 0 (set_right A None (set_left A None (set_parent A None (m i))))) j = m j).
    { intros j J. unfold upd. apply Nat.eqb_neq in J. rewrite J. reflexivity. }
    split.
    - unfold pool. split; [ | split; [exact Hnd | split; [ | split]]].
      + eapply freel_ext; [ | exact F]. intros j J. apply Out. intros ->. exact (Hni J).
      + intros j J. apply Hc. right. exact J.
      + cbn [length]. lia.
      + cbn [length]. lia.
    - unfold upd at 1 2 3 4. rewrite Nat.eqb_refl. cbn. repeat (split; [reflexivity | ]). exact Out. }
  destruct L as [ | i L].
  - (* the pool grows *)
    cbn [freel] in P1. subst f. cbn [length] in P4. replace n with c in * by lia. unfold alloc, grow. cbn [t_free t_cap t_count t_nodes t_root t_map].
    assert (Hz : (Z.of_nat (2 * c) <? 2 ^ 32)%Z = true) by (apply Z.ltb_lt; change (2 ^ 32)%Z with (2 * 2 ^ 31)%Z; lia).
    rewrite Hz.
    destruct (Pop (link_all A c (2 * c - 1) m) (2 * c) (Some c) c (seq (S c) (2 * c - 1 - c))) as (m' & f' & E & Q1 & Q2 & Q3 & Q4 & Q5 & Q6).
    + apply link_all_free. lia.
    + apply (seq_NoDup (S (2 * c - 1 - c)) c).
    + change (c :: seq (S c) (2 * c - 1 - c)) with (seq c (S (2 * c - 1 - c))). intros j J. apply in_seq in J. lia.
    + cbn [length]. rewrite seq_length. lia.
    + exists c, m', (2 * c), f', (seq (S c) (2 * c - 1 - c)). split; [exact E | ]. split; [exact Q1 | ].
      split; [lia | ]. split; [lia | ]. split; [rewrite in_seq; lia | ]. repeat (split; [assumption | ]).
      intros j J _. split; [lia | ]. split; [rewrite in_seq; lia | ]. rewrite Q6 by lia. apply link_all_out; lia.
  - unfold alloc, grow. assert (Ef : f = Some i) by (cbn in P1; tauto). cbn [t_free]. rewrite Ef.
    destruct (Pop m c f i L P1 P2 P3 P4) as (m' & f' & E & Q1 & Q2 & Q3 & Q4 & Q5 & Q6).
    rewrite Ef in E. exists i, m', c, f', L. split; [exact E | ]. split; [exact Q1 | ]. split; [lia | ].
    split; [apply P3; left; reflexivity | ]. split; [inversion P2; assumption | ]. repeat (split; [assumption | ]).
    intros j J J'. cbn [In] in J'. split; [intros ->; tauto | ]. split; [tauto | ]. apply Q6. intros ->. tauto.
Qed.

(** The tree in the pool, apart from the free nodes. *)
Definition holds (m : nat -> nd) (c : nat) (L : list nat) (s : bt) : Prop :=
  rep m None s /\ wf s /\ NoDup (ids s) /\ (forall j, In j (ids s) -> j < c /\ ~ In j L).

Lemma NoDup_bound (l : list nat) c : NoDup l -> (forall j, In j l -> j < c) -> length l <= c.
Proof.
  intros H H'. rewrite <- (seq_length c 0). apply NoDup_incl_length; [exact H | ].
  intros j J. apply in_seq. specialize (H' j J). lia.
Qed.
Lemma length_pids p : length p <= length (pids p).
Proof. induction p as [ | fr p IH]; cbn; [lia | ]. rewrite app_length. lia. Qed.

Lemma insert_leaf_ok m c n f mp L s leaf b :
  pool m c n f L -> (Z.of_nat n < 2 ^ 31)%Z -> holds m c L s ->
  leaf < c -> ~ In leaf L -> ~ In leaf (ids s) ->
  rep m (n_parent A (m leaf)) (Lf A leaf b) -> valid A b ->
  exists x, insert_leaf A leaf (Tree A m c n f (Some (idx s)) mp) = Some x /\
    exists m' c' f' L' s', x = Tree A m' c' (S n) f' (Some (idx s')) mp /\
      pool m' c' (S n) f' L' /\ holds m' c' L' s' /\ Permutation (leaves s') ((leaf, b) :: leaves s) /\
      (forall j, In j (leaf :: ids s) -> n_part A (m' j) = n_part A (m j)) /\
      leaf < c'.
Proof.
  intros Hpool Hn (Hrep & Hw & Hnd & Hc) Hlf HlL Hls Hleaf Hv.
  cbn [SearchProofs.rep] in Hleaf. destruct Hleaf as (_ & Lf1 & Lf2 & Lf3 & Lf4).
  unfold insert_leaf. cbn [t_root].
  rewrite rd_ok by exact Hlf. cbn [bind t_cap]. rewrite Lf4.
  destruct (descend_ok b m c n f (Some (idx s)) mp s (S c) []) as (sib & p & Ed & R1 & R2 & R3 & R4 & R5 & R6 & R7).
  { pose proof (NoDup_bound (ids s) c Hnd (fun j J => proj1 (Hc j J))). lia. }
  { exact Hrep. } { exact I. } { exact Hw. } { constructor. } { intros j J. apply Hc, J. }
  cbn [SearchProofs.pids SearchProofs.pleaves] in R5, R6. rewrite app_nil_r in R5, R6. cbn [SearchProofs.top] in R7.
  rewrite Ed. cbn [bind].
  assert (Hin : forall j, In j (ids sib ++ pids p) <-> In j (ids s)).
  { intros j. split; apply Permutation_in; [exact R5 | symmetry; exact R5]. }
  assert (Hnd' : NoDup (ids sib ++ pids p)) by (eapply Permutation_NoDup; [symmetry; exact R5 | exact Hnd]).
  apply NoDup_app_inv in Hnd'. destruct Hnd' as (Ds & Dp & Dx).
  pose proof (idx_ids A sib) as Is.
  assert (Hin1 : forall j, In j (ids sib) -> In j (ids s)) by (intros j J; apply Hin, in_or_app; auto).
  assert (Hin2 : forall j, In j (pids p) -> In j (ids s)) by (intros j J; apply Hin, in_or_app; auto).
  rewrite rd_ok by (apply Hc, Hin1, Is). cbn [bind].
  rewrite (rep_parent A m (par_of p) sib R1).
  destruct (alloc_ok m c n f (Some (idx s)) mp L Hpool Hn) as (new & m1 & c' & f' & L' & Ea & Hpool' & Hcc & Hnc & HnL & G1 & G2 & G3 & G4 & Hold).
  rewrite Ea. cbn [bind fst snd].
  assert (Hids : forall j, In j (ids s) -> j <> new /\ ~ In j L' /\ m1 j = m j) by (intros j J; apply Hold; apply Hc, J).
  destruct (Hold leaf Hlf HlL) as (Nl & LL & ML).
  assert (NlI : forall j, In j (ids s) -> j <> leaf) by (intros j J ->; exact (Hls J)).
  assert (Hsc : idx sib < c') by (destruct (Hc _ (Hin1 _ Is)); lia).
  apply wr_step; [exact Hnc | intros m2 E2 N2].
  rewrite rd_ok by exact Hsc. cbn [bind].
  apply wr_step; [exact Hnc | intros m3 E3 N3].
  assert (M3 : forall j, In j (ids s) \/ j = leaf -> m3 j = m j).
  { intros j J. assert (j <> new) by (destruct J as [J | ->]; [apply Hids, J | exact Nl]).
    rewrite N3, N2 by assumption. destruct J as [J | ->]; [apply Hids, J | exact ML]. }
  assert (P3 : repp m3 (idx sib) p) by (eapply repp_ext; [ | exact R2]; intros j J; apply M3; left; auto).
  assert (Fin : forall m4, repp m4 new p -> (forall j, ~ In j (pids p) -> m4 j = m3 j) -> (forall j, n_part A (m4 j) = n_part A (m3 j)) ->
    forall rt, match p with [] => True | _ => rt = Some (top new p) end ->
    exists x : st,
      bind (wr A new (fun nd0 => set_right A (Some leaf) (set_left A (Some (idx sib)) nd0)) (Tree A m4 c' (S n) f' rt mp)) (fun t0 =>
        bind (wr A (idx sib) (set_parent A (Some new)) t0) (fun t1 =>
          bind (wr A leaf (set_parent A (Some new)) t1) (fun t2 =>
            let t3 := match par_of p with None => with_root A (Some new) t2 | Some _ => t2 end in
            bind (rd A t3 leaf) (fun nl => walk_up A (S (t_cap A t3)) (n_parent A nl) t3)))) = Some x /\
      exists m' c'0 f'0 L'0 s', x = Tree A m' c'0 (S n) f'0 (Some (idx s')) mp /\
        pool m' c'0 (S n) f'0 L'0 /\ holds m' c'0 L'0 s' /\ Permutation (leaves s') ((leaf, b) :: leaves s) /\
        (forall j, In j (leaf :: ids s) -> n_part A (m' j) = n_part A (m j)) /\ leaf < c'0).
  { intros m4 P4 N4 Pt4 rt Hrt.
    apply wr_step; [exact Hnc | intros m5 E5 N5].
    apply wr_step; [exact Hsc | intros m6 E6 N6].
    apply wr_step; [lia | intros m7 E7 N7].
    replace (match par_of p with None => with_root A (Some new) (Tree A m7 c' (S n) f' rt mp) | Some _ => Tree A m7 c' (S n) f' rt mp end)
      with (Tree A m7 c' (S n) f' (Some (top new p)) mp).
    2: { destruct p; cbn [SearchProofs.par_of]; [reflexivity | rewrite Hrt; reflexivity]. }
    cbv zeta. rewrite rd_ok by lia. cbn [bind]. rewrite E7. cbn [n_parent set_parent t_cap].
    assert (Nsn : idx sib <> new) by (apply Hids, Hin1, Is).
    assert (Nsl : idx sib <> leaf) by (apply NlI, Hin1, Is).
    assert (Npn : ~ In new (pids p)) by (intros J; apply (proj1 (Hids _ (Hin2 _ J))); reflexivity).
    assert (Npl : ~ In leaf (pids p)) by (intros J; apply (NlI _ (Hin2 _ J)); reflexivity).
    assert (Nps : ~ In (idx sib) (pids p)) by (intros J; exact (Dx _ Is J)).
    assert (M7n : m7 new = set_right A (Some leaf) (set_left A (Some (idx sib)) (m3 new))).
    { rewrite N7, N6, E5, N4 by congruence. reflexivity. }
    assert (M7l : m7 leaf = set_parent A (Some new) (m leaf)).
    { rewrite E7, N6, N5, N4, M3 by (auto || congruence). reflexivity. }
    assert (M7s : m7 (idx sib) = set_parent A (Some new) (m (idx sib))).
    { rewrite N7, E6, N5, N4, M3 by (auto || congruence). reflexivity. }
    assert (M7 : forall j, j <> new -> j <> leaf -> j <> idx sib -> ~ In j (pids p) -> m7 j = m3 j).
    { intros j J1 J2 J3 J4. rewrite N7, N6, N5, N4 by assumption. reflexivity. }
    set (bn := n_box A (m7 new)). set (hn := n_height A (m7 new)).
    assert (Hall : forall j, In j (new :: ids sib ++ [leaf] ++ pids p) <-> j = new \/ j = leaf \/ In j (ids s)).
    { intros j. rewrite <- Hin. cbn [In app]. rewrite !in_app_iff. cbn [In]. intuition congruence. }
    assert (Hnd2 : NoDup (new :: ids sib ++ [leaf] ++ pids p)).
    { constructor.
      - intros J. rewrite !in_app_iff in J. cbn [In] in J. destruct J as [J | [[J | []] | J]].
        + apply (proj1 (Hids _ (Hin1 _ J))). reflexivity.
        + congruence.
        + exact (Npn J).
      - eapply (Permutation_NoDup (l := leaf :: ids sib ++ pids p)); [perm | ]. constructor.
        + rewrite Hin. exact Hls.
        + eapply Permutation_NoDup; [symmetry; exact R5 | exact Hnd]. }
    assert (Hc2 : forall j, In j (new :: ids sib ++ [leaf] ++ pids p) -> j < c').
    { intros j J. apply Hall in J. destruct J as [-> | [-> | J]]; [exact Hnc | lia | ]. destruct (Hc j J). lia. }
    destruct (walk_up_ok p c' new bn hn sib (Lf A leaf b) m7 c' (S n) f' mp) as (s' & m8 & Ew & W1 & W2 & W3 & W4 & W5 & W6).
    - assert (X : length (new :: ids sib ++ [leaf] ++ pids p) <= c') by (apply NoDup_bound; assumption).
      cbn [length] in X. rewrite !app_length in X. pose proof (length_pids p). lia.
    - cbn [SearchProofs.rep SearchProofs.idx]. rewrite M7n, M7l. cbn. rewrite E3. cbn.
      rewrite E2. cbn. rewrite Lf1, Lf2, Lf3, Lf4.
      split; [reflexivity | ]. split; [reflexivity | ]. split; [reflexivity | ].
      unfold hn, bn. rewrite M7n, E3, E2. cbn. split; [reflexivity | ]. split; [reflexivity | ]. split.
      + apply (rep_move A m _ (par_of p)); [exact Ds | exact M7s | | exact R1]. intros j J J'.
        rewrite M7, M3; [reflexivity | left; exact (Hin1 _ J) | apply Hids, Hin1, J | apply NlI, Hin1, J | exact J' | ].
        intros J2. exact (Dx j J J2).
      + auto.
    - eapply repp_ext; [ | exact P4]. intros j J.
      assert (j <> new) by congruence. assert (j <> leaf) by congruence. assert (j <> idx sib) by congruence.
      rewrite N7, N6, N5 by assumption. reflexivity.
    - exact R3.
    - exact Hv.
    - exact R4.
    - exact Hnd2.
    - exact Hc2.
    - lia.
    - exists (Tree A m8 c' (S n) f' (Some (idx s')) mp). split; [exact Ew | ].
      exists m8, c', f', L', s'. split; [reflexivity | ].
      cbn [SearchProofs.ids] in W3. cbn [SearchProofs.leaves] in W4. cbn [SearchProofs.ids] in W6.
      assert (HL' : forall j, In j L' -> ~ In j (new :: ids sib ++ [leaf] ++ pids p)).
      { intros j J J'. apply Hall in J'. destruct J' as [-> | [-> | J']]; [exact (HnL J) | exact (LL J) | ].
        apply (proj1 (proj2 (Hids j J'))), J. }
      split; [ | split; [ | split; [ | split]]].
      + destruct Hpool' as (Q1 & Q2 & Q3 & Q4 & Q5). split; [ | split; [exact Q2 | split; [exact Q3 | split; [exact Q4 | exact Q5]]]].
        eapply freel_ext; [ | exact Q1]. intros j J. specialize (HL' j J). rewrite W6 by exact HL'.
        cbn [In app] in HL'. rewrite !in_app_iff in HL'. cbn [In] in HL'.
        rewrite M7; try (intros ->; tauto); try tauto.
        rewrite N3, N2 by (intros ->; tauto). reflexivity.
      + split; [exact W2 | ]. split; [exact W1 | ]. split.
        * eapply Permutation_NoDup; [symmetry; exact W3 | exact Hnd2].
        * intros j J. assert (J' : In j (new :: ids sib ++ [leaf] ++ pids p)) by (eapply Permutation_in; [exact W3 | exact J]).
          split; [apply Hc2, J' | ]. intros JL. exact (HL' j JL J').
      + rewrite W4, <- R6. perm.
      + intros j J. rewrite W5.
        destruct (Nat.eq_dec j leaf) as [-> | Jl]; [rewrite M7l; reflexivity | ].
        destruct (Nat.eq_dec j (idx sib)) as [-> | Js]; [rewrite M7s; reflexivity | ].
        destruct J as [-> | J]; [congruence | ].
        assert (j <> new) by (apply Hids, J).
        rewrite N7, N6, N5, Pt4, M3 by auto. reflexivity.
      + lia. }
  assert (Hp3 : forall j, In j (pids p) -> j < c') by (intros j J; destruct (Hc _ (Hin2 _ J)); lia).
  destruct p as [ | fr p].
  - cbn [SearchProofs.par_of bind]. apply (Fin m3); auto.
  - rewrite <- R7.
    apply (replace_child_ok A (idx sib) new (fr :: p) m3 c' (S n) f' mp); [exact P3 | | exact Hp3 | ].
    { constructor; [intros J; exact (Dx _ Is J) | exact Dp]. }
    intros m4 Q1 Q2 _ Q3. apply (Fin m4); auto.
Qed.
End S.
