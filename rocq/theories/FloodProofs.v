(** The result of the cell classification. *)
From Coq Require Import Arith List Bool ZArith Lia Permutation Sorted Relations.
From Verif Require Import GridModel GridSpec GridProofs GridStoreModel GridGeoModel Geo FloodModel FloodSpec FloodSets FloodFillProofs FloodMergeProofs.
Import ListNotations.

Lemma Forall2_in_r_ex {A B} (R : A -> B -> Prop) la lb y : In y lb -> Forall2 R la lb -> exists x, In x la /\ R x y.
Proof.
  intros Hy H. induction H as [|x z la lb H HF IH]; [contradiction|].
  destruct Hy as [->|Hy]; [exists x; simpl; auto|]. destruct (IH Hy) as (x' & ? & ?). exists x'; simpl; auto.
Qed.
Lemma Forall2_in_l_ex {A B} (R : A -> B -> Prop) la lb x : In x la -> Forall2 R la lb -> exists y, In y lb /\ R x y.
Proof.
  intros Hx H. induction H as [|x' z la lb H HF IH]; [contradiction|].
  destruct Hx as [->|Hx]; [exists z; simpl; auto|]. destruct (IH Hx) as (y' & ? & ?). exists y'; simpl; auto.
Qed.

Section Mark.
Lemma mark_fold (s : istate) : forall l (st : nat -> istate) j, fold_left (fun st i => upd st i s) l st j = if in_dec Nat.eq_dec j l then s else st j.
Proof.
  induction l as [|x l IH]; intros st j; simpl; [reflexivity|].
  rewrite IH. unfold upd. destruct (Nat.eqb_spec j x) as [->|Hne].
  - destruct (in_dec Nat.eq_dec x l); destruct (Nat.eq_dec x x); try reflexivity; congruence.
  - destruct (Nat.eq_dec x j); [congruence|]. destruct (in_dec Nat.eq_dec j l); reflexivity.
Qed.
Definition state_of (gr : group) : istate := if (0 <? g_count gr)%Z then Inside else Outside.
Lemma mark_group_val st gr j : mark_group st gr j = if in_dec Nat.eq_dec j (g_set gr) then state_of gr else st j.
Proof. unfold mark_group. apply mark_fold. Qed.
Lemma mark_states_out gs : forall st j, (forall gr, In gr gs -> ~ In j (g_set gr)) -> mark_states st gs j = st j.
Proof.
  induction gs as [|gr gs IH]; intros st j H; [reflexivity|].
  change (mark_states st (gr :: gs)) with (mark_states (mark_group st gr) gs). rewrite IH by (intros; apply H; right; assumption). rewrite mark_group_val.
  destruct (in_dec Nat.eq_dec j (g_set gr)) as [Hin|]; [|reflexivity]. exfalso. eapply H; [left; reflexivity|assumption].
Qed.
Lemma mark_states_in gs : forall st j gr, NoDup (concat (map g_set gs)) -> In gr gs -> In j (g_set gr) -> mark_states st gs j = state_of gr.
Proof.
  induction gs as [|g0 gs IH]; intros st j gr Hn Hgr Hj; [contradiction|].
  simpl in Hn. apply NoDup_app_iff in Hn. destruct Hn as (H1 & H2 & H3).
  change (mark_states st (g0 :: gs)) with (mark_states (mark_group st g0) gs). destruct Hgr as [->|Hgr].
  - rewrite mark_states_out.
    + rewrite mark_group_val. destruct (in_dec Nat.eq_dec j (g_set gr)); [reflexivity|contradiction].
    + intros gr' Hgr' Hj'. apply (H3 j Hj). apply in_concat. exists (g_set gr'). split; [apply in_map; assumption|assumption].
  - apply (IH (mark_group st g0) j gr H2 Hgr Hj).
Qed.
End Mark.

Section R.
Variable g : grid.
Variable T : nat -> bool.
Variable P : nat -> dir -> bool.
Variable V : nat -> nat -> dir -> bool.
Hypothesis Hg : grid_ok g.
Variable threads : nat.
Hypothesis Ht : 0 < threads.
Let a := part_axis g.
Let df := walk_fwd a.
Let db := walk_bwd a.
Let ps := partitions g threads.
Definition total_votes (i : nat) : Z :=
  (face_votes g P V i + wrap_votes g P V (walk_fwd (part_axis g)) (walk_bwd (part_axis g)) i)%Z.

Section Groups.
Variable gs : list group.
Hypothesis Hgs : forall gr, In gr gs -> grp_ok g T P V threads gr.
Hypothesis Hdisj : NoDup (concat (map g_set gs)).
Hypothesis Hcover : forall j, j < num_elements g -> T j = false -> exists gr, In gr gs /\ In j (g_set gr).

Lemma cells_index : forall l x x' y, NoDup (concat (map g_set l)) ->
  In y (match nth_error l x with Some gr => g_set gr | None => [] end) ->
  In y (match nth_error l x' with Some gr => g_set gr | None => [] end) -> x = x'.
Proof.
  induction l as [|gr l IH]; intros x x' y Hn Hx Hx'; [destruct x; contradiction|].
  simpl in Hn. apply NoDup_app_iff in Hn. destruct Hn as (H1 & H2 & H3).
  assert (Ht' : forall k, In y (match nth_error l k with Some gr => g_set gr | None => [] end) -> In y (concat (map g_set l))).
  { intros k Hk. destruct (nth_error l k) as [gr'|] eqn:E; [|contradiction]. apply in_concat. exists (g_set gr').
    split; [apply in_map; eapply nth_error_In; eauto|assumption]. }
  destruct x, x'; simpl in *; try reflexivity.
  - exfalso. eapply H3; eauto.
  - exfalso. eapply H3; eauto.
  - f_equal. eapply IH; eauto.
Qed.

Lemma cells_in x y : In y (cellsof gs x) -> exists gr, nth_error gs x = Some gr /\ In y (g_set gr).
Proof. unfold cellsof. destruct (nth_error gs x) as [gr|]; [|contradiction]. exists gr. auto. Qed.
Lemma in_cells x gr y : nth_error gs x = Some gr -> In y (g_set gr) -> In y (cellsof gs x).
Proof. unfold cellsof. intros ->. auto. Qed.

Lemma adji_sym : symmetric_faces g T P -> forall x y, adji g P V threads gs x y -> adji g P V threads gs y x.
Proof.
  intros Hs x y (gx & Ex & gy & Ey & Ha).
  destruct (Nat.eq_dec x y) as [->|Hne].
  - exists gx. split; [assumption|]. exists gx. split; [assumption|]. congruence.
  - assert (Ox : grp_ok g T P V threads gx) by (apply Hgs; eapply nth_error_In; eauto).
    assert (Oy : grp_ok g T P V threads gy) by (apply Hgs; eapply nth_error_In; eauto).
    destruct (adj_linked g T P V Hg threads gx gy Ox Oy Ha) as (i & j & Hi & Hj & Hl).
    exists gy. split; [assumption|]. exists gx. split; [assumption|].
    eapply (linked_adj g T P V Hg threads Ht gy gx j i); eauto using linked_sym.
    intros Hi'. apply Hne. eapply cells_index; [exact Hdisj| |]; fold (cellsof gs x); fold (cellsof gs y); eapply in_cells; eauto.
Qed.

Lemma merged_cells Is out : Forall2 (mok g P V threads gs) Is out -> NoDup (concat Is) -> NoDup (concat (map g_set out)).
Proof.
  induction 1 as [|I m Is out Hm HF IH]; simpl; intros Hn; [constructor|].
  apply NoDup_app_iff in Hn. destruct Hn as (H1 & H2 & H3). apply NoDup_app_iff.
  split; [apply ssorted_NoDup, Hm|]. split; [auto|]. intros y Hy Hy'.
  apply in_concat in Hy'. destruct Hy' as (l & Hl & Hy'). apply in_map_iff in Hl. destruct Hl as (m' & <- & Hm').
  destruct Hm as (_ & B & _). apply B in Hy. destruct Hy as (x & Hx & Hy).
  destruct (Forall2_in_r_ex _ _ _ m' Hm' HF) as (I' & HI' & (_ & B' & _)).
  apply B' in Hy'. destruct Hy' as (x' & Hx' & Hy').
  assert (x = x') by (eapply cells_index; eauto). subst x'.
  apply (H3 x Hx). apply in_concat. exists I'. auto.
Qed.

Lemma concat_map_NoDup I : NoDup I -> (forall x, In x I -> x < length gs) -> NoDup (concat (map (cellsof gs) I)).
Proof.
  induction I as [|x I IH]; simpl; intros Hn Hl; [constructor|].
  inversion Hn; subst. apply NoDup_app_iff. split; [|split].
  - unfold cellsof. destruct (nth_error gs x) as [gr|] eqn:E; [|constructor].
    destruct (Hgs gr (nth_error_In _ _ E)) as (p & _ & S). apply ssorted_NoDup, S.
  - apply IH; auto.
  - intros y Hy Hy'. apply in_concat in Hy'. destruct Hy' as (l & Hl' & Hy'). apply in_map_iff in Hl'.
    destruct Hl' as (x' & <- & Hx'). assert (x = x') by (eapply cells_index; eauto). congruence.
Qed.

Lemma cnt_total x : cntof g P V threads gs x = zsum total_votes (cellsof gs x).
Proof.
  unfold cntof, cellsof. destruct (nth_error gs x) as [gr|] eqn:E; [|reflexivity].
  destruct (Hgs gr (nth_error_In _ _ E)) as (p & Hp & S).
  cbn [with_boundary b_group g_count]. rewrite fold_left_zsum.
  rewrite (nth_error_nth _ _ _ Hp), (sg_count _ _ _ _ _ _ _ S), <- zsum_plus.
  apply zsum_ext. intros i Hi. apply (lvotes_total g T P V Hg threads Ht (g_part gr) p i Hp).
  apply (sg_cell _ _ _ _ _ _ _ S i Hi).
Qed.

Lemma zsum_concat I : zsum (cntof g P V threads gs) I = zsum total_votes (concat (map (cellsof gs) I)).
Proof.
  induction I as [|x I IH]; simpl; [reflexivity|]. rewrite zsum_app, IH, cnt_total. reflexivity.
Qed.

Lemma mok_count I m : mok g P V threads gs I m -> NoDup I -> (forall x, In x I -> x < length gs) ->
  g_count m = zsum total_votes (g_set m).
Proof.
  intros (A & B & C) Hn Hl. rewrite C, zsum_concat. apply zsum_perm, NoDup_Permutation.
  - apply concat_map_NoDup; assumption.
  - apply ssorted_NoDup; assumption.
  - intros y. rewrite B, in_concat. split.
    + intros (l & Hl' & Hy). apply in_map_iff in Hl'. destruct Hl' as (x & <- & Hx). exists x. auto.
    + intros (x & Hx & Hy). exists (cellsof gs x). split; [apply in_map; assumption|assumption].
Qed.

Lemma slab_connected p r j : part_ok g p -> inslab g p r -> T r = false -> ereach g T P p r j -> connected g T P r j /\ inslab g p j /\ T j = false.
Proof.
  intros Hp Hr Tr H. apply clos_rt_rtn1 in H. induction H as [|y z Hyz H IH].
  - split; [apply rt_refl|auto].
  - destruct IH as (A & B & C). destruct Hyz as (d & En & HP & Tz).
    apply step_middle_nb in En; [|assumption|assumption|assumption]. destruct En as (Hn & Hz).
    split; [|auto]. eapply rt_trans; [exact A|]. apply rt_step. exists d. auto.
Qed.

Lemma group_connected gr i j : symmetric_faces g T P -> grp_ok g T P V threads gr -> In i (g_set gr) -> In j (g_set gr) -> connected g T P i j.
Proof.
  intros Hs (p & Hp & S) Hi Hj. destruct (sg_conn _ _ _ _ _ _ _ S) as (r & Hr & Hc).
  assert (Hpo : part_ok g p) by (eapply partitions_ok; eauto).
  destruct (sg_cell _ _ _ _ _ _ _ S r Hr) as (Ir & Tr).
  eapply rt_trans with r.
  - apply connected_sym; [assumption..|]. apply (slab_connected p); auto.
  - apply (slab_connected p); auto.
Qed.

Lemma areach_connected x y : symmetric_faces g T P -> areach g P V threads gs x y ->
  forall i j, In i (cellsof gs x) -> In j (cellsof gs y) -> connected g T P i j.
Proof.
  intros Hs H. apply clos_rt_rt1n in H. induction H as [x|x y z Hxy H IH]; intros i j Hi Hj.
  - apply cells_in in Hi, Hj. destruct Hi as (gr & E & Hi), Hj as (gr' & E' & Hj). assert (gr = gr') by congruence. subst gr'.
    eapply group_connected; eauto. apply Hgs. eapply nth_error_In; eauto.
  - destruct Hxy as (gx & Ex & gy & Ey & Ha).
    apply cells_in in Hi. destruct Hi as (gr & E & Hi). assert (gr = gx) by congruence. subst gr.
    assert (Ox : grp_ok g T P V threads gx) by (apply Hgs; eapply nth_error_In; eauto).
    assert (Oy : grp_ok g T P V threads gy) by (apply Hgs; eapply nth_error_In; eauto).
    destruct (adj_linked g T P V Hg threads gx gy Ox Oy Ha) as (i' & j' & Hi' & Hj' & Hl).
    apply rt_trans with i'; [eapply (group_connected gx); eauto|]. apply rt_trans with j'; [apply rt_step; exact Hl|].
    apply IH; [eapply in_cells; eauto|assumption].
Qed.

Lemma region_of_merged Is out I m i : symmetric_faces g T P ->
  merged g P V threads gs Is out (fun x => x <? length gs) -> (forall x, In x (concat Is) <-> x < length gs) ->
  In I Is -> mok g P V threads gs I m -> In i (g_set m) -> is_region g T P i (g_set m).
Proof.
  intros Hs M Hall HI (A & B & C) Hi. split; [apply ssorted_NoDup; assumption|].
  destruct (m_conn _ _ _ _ _ _ _ _ M I HI) as (r & Hr & Hreach).
  assert (Hpt : forall x, In x I -> exists y, In y (cellsof gs x)).
  { intros x Hx. assert (x < length gs) as Hlt by (apply Hall, in_concat; exists I; auto).
    destruct (nth_error gs x) as [gr|] eqn:E; [|apply nth_error_None in E; lia].
    destruct (Hgs gr (nth_error_In _ _ E)) as (p & Hp & S).
    destruct (g_set gr) as [|y l] eqn:El; [exfalso; eapply (sg_nonempty _ _ _ _ _ _ _ S); eauto|].
    exists y. eapply in_cells; eauto. rewrite El. left; reflexivity. }
  intros j. split.
  - intros Hj. apply B in Hi, Hj. destruct Hi as (x & Hx & Hi), Hj as (y & Hy & Hj).
    destruct (Hpt r Hr) as (q & Hq).
    eapply rt_trans with q.
    + apply connected_sym; [assumption..|]. apply (areach_connected r x); auto.
    + apply (areach_connected r y); auto.
  - intros H. apply clos_rt_rtn1 in H. induction H as [|y z Hyz H IH]; [assumption|].
    apply B in IH. destruct IH as (x & Hx & Hy). pose proof Hyz as (d & Hn & Ty & Tz & HP).
    destruct (Hcover z) as (gz & Hgz & Hz); [apply Hn|assumption|].
    apply In_nth_error in Hgz. destruct Hgz as (x' & Ex').
    apply B. exists x'. split; [|eapply in_cells; eauto].
    destruct (Nat.eq_dec x x') as [->|Hne]; [assumption|].
    apply cells_in in Hy. destruct Hy as (gy & Ey & Hy).
    assert (Oy : grp_ok g T P V threads gy) by (apply Hgs; eapply nth_error_In; eauto).
    assert (Oz : grp_ok g T P V threads gz) by (apply Hgs; eapply nth_error_In; eauto).
    eapply (m_closed _ _ _ _ _ _ _ _ M (adji_sym Hs) I HI x x' Hx).
    exists gy. split; [assumption|]. exists gz. split; [assumption|].
    eapply (linked_adj g T P V Hg threads Ht gy gz y z); eauto.
    intros Hz'. apply Hne. eapply cells_index; [exact Hdisj| |]; fold (cellsof gs x); fold (cellsof gs x'); eapply in_cells; eauto.
Qed.
End Groups.

Lemma classify_main res : classify_rel g T P V threads res ->
  exists st, res = Some st /\
    (forall i, i < num_elements g -> (st i = Trimmed <-> T i = true)) /\
    (symmetric_faces g T P -> forall i, i < num_elements g -> T i = false ->
       exists comp, is_region g T P i comp /\ st i = if (0 <? zsum total_votes comp)%Z then Inside else Outside).
Proof.
  intros H. unfold classify_rel in H.
  destruct (fill_all_ok g T P V Hg threads Ht) as (st & GS & EF & HG & HT & HC). rewrite EF in H.
  destruct H as (gs & HP & ->).
  assert (Hgs : forall gr, In gr gs -> grp_ok g T P V threads gr).
  { intros gr Hgr. apply (G_grp _ _ _ _ _ _ _ HG). eapply Permutation_in; [apply Permutation_sym; exact HP|assumption]. }
  assert (Hdisj : NoDup (concat (map g_set gs))).
  { eapply Permutation_NoDup; [|exact (G_disj _ _ _ _ _ _ _ HG)].
    rewrite <- !flat_map_concat_map. apply Permutation_flat_map. assumption. }
  assert (Hcover : forall j, j < num_elements g -> T j = false -> exists gr, In gr gs /\ In j (g_set gr)).
  { intros j Hj Tj. destruct (HC j Hj Tj) as (gr & Hgr & Hin). exists gr. split; [|assumption].
    eapply Permutation_in; [exact HP|assumption]. }
  destruct (merge_groups_ok g T P V threads Ht gs Hgs) as (Is & out & EM & M & Hall).
  unfold finish. rewrite EM. exists (mark_states st out). split; [reflexivity|].
  pose proof (m_mok _ _ _ _ _ _ _ _ M) as HF.
  pose proof (merged_cells gs Hdisj Is out HF (m_nodup _ _ _ _ _ _ _ _ M)) as Hnd.
  assert (Hun : forall m j, In m out -> In j (g_set m) -> T j = false).
  { intros m j Hm Hj. destruct (Forall2_in_r_ex _ _ _ m Hm HF) as (I & HI & (_ & B & _)). apply B in Hj.
    destruct Hj as (x & _ & Hj). apply cells_in in Hj. destruct Hj as (gr & E & Hj).
    eapply grp_cell; [apply Hgs; eapply nth_error_In; eauto|assumption]. }
  assert (Hfind : forall i, i < num_elements g -> T i = false -> exists I m, In I Is /\ In m out /\ mok g P V threads gs I m /\ In i (g_set m)).
  { intros i Hi Ti. destruct (Hcover i Hi Ti) as (gr & Hgr & Hin). apply In_nth_error in Hgr. destruct Hgr as (x & Ex).
    assert (Hx : In x (concat Is)) by (apply Hall, nth_error_Some; congruence).
    apply in_concat in Hx. destruct Hx as (I & HI & Hx).
    destruct (Forall2_in_l_ex _ _ _ I HI HF) as (m & Hm & Hmok). exists I, m. split; [assumption|]. split; [assumption|]. split; [assumption|].
    destruct Hmok as (_ & B & _). apply B. exists x. split; [assumption|]. eapply in_cells; eauto. }
  split.
  - intros i Hi. destruct (T i) eqn:Ti.
    + split; [reflexivity|]. intros _. rewrite mark_states_out; [apply HT; assumption|].
      intros m Hm Hin. rewrite (Hun m i Hm Hin) in Ti. discriminate.
    + split; [|discriminate]. intros E. exfalso. destruct (Hfind i Hi Ti) as (I & m & _ & Hm & _ & Hin).
      rewrite (mark_states_in out st i m Hnd Hm Hin) in E. unfold state_of in E. destruct (0 <? g_count m)%Z; discriminate.
  - intros Hs i Hi Ti. destruct (Hfind i Hi Ti) as (I & m & HI & Hm & Hmok & Hin).
    exists (g_set m). split; [eapply region_of_merged; eauto|].
    rewrite (mark_states_in out st i m Hnd Hm Hin). unfold state_of.
    rewrite (mok_count gs Hgs Hdisj I m Hmok).
    + reflexivity.
    + pose proof (m_nodup _ _ _ _ _ _ _ _ M) as Hn. clear - HI Hn.
      induction Is as [|I' Is IH]; [contradiction|]. simpl in Hn. apply NoDup_app_iff in Hn. destruct HI as [->|HI]; [tauto|apply IH; tauto].
    + intros x Hx. apply Hall, in_concat. exists I. auto.
Qed.
End R.

Lemma region_unique g T P i j c c' : connected g T P i j -> symmetric_faces g T P ->
  is_region g T P i c -> is_region g T P j c' -> Permutation c c'.
Proof.
  intros Hij Hs (N & H) (N' & H'). apply NoDup_Permutation; auto.
  intros x. rewrite H, H'. split; intros K.
  - eapply rt_trans; [apply connected_sym; eauto | exact K].
  - eapply rt_trans; [exact Hij | exact K].
Qed.
