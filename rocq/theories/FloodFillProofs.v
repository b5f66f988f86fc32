(** The flood fill inside one slab. *)
From Coq Require Import Arith List Bool ZArith Lia Permutation Sorted Relations.
From Verif Require Import GridModel GridSpec GridProofs GridStoreModel GridGeoModel Geo FloodModel FloodSpec FloodSets.
Import ListNotations.

Section F.
Variable g : grid.
Variable T : nat -> bool.
Variable P : nat -> dir -> bool.
Variable V : nat -> nat -> dir -> bool.
Hypothesis Hg : grid_ok g.

Definition inslab (p : part) (i : nat) : Prop := i < num_elements g /\ in_box p (mat_of g i).

(** one step of the fill: j is entered from i *)
Definition estep (p : part) (i j : nat) : Prop :=
  exists d, next_index g i d p = (j, Middle) /\ P j d = false /\ T j = false.
Definition ereach (p : part) : nat -> nat -> Prop := clos_refl_trans nat (estep p).

Definition lvote (p : part) (i : nat) (d : dir) : Z :=
  match next_index g i d p with
  | (n, Middle) => if P n d then inside_count V i n d else 0%Z
  | _ => 0%Z
  end.
Definition dsum (f : dir -> Z) (ds : list dir) : Z := fold_right (fun d acc => (f d + acc)%Z) 0%Z ds.
Definition lvotes (p : part) (i : nat) : Z := dsum (lvote p i) directions.

Lemma next_inslab p i d j f : part_ok g p -> inslab p i -> next_index g i d p = (j, f) -> inslab p j.
Proof.
  intros Hp (Hi & Hb) E. rewrite <- (vec_of_mat_of g i Hg) in E.
  destruct (step_result_in_box g d p (mat_of g i) j f Hp Hb E) as (c' & Hc' & ->).
  assert (in_grid g c') by (eapply in_box_in_grid; eauto).
  split; [apply vec_of_bound; assumption|]. rewrite mat_of_vec_of; assumption.
Qed.

Section Fill.
Variable p : part.
Hypothesis Hp : part_ok g p.
Variable k root : nat.
Variable W : nat -> bool.            (* visited before this fill *)

Record J (s : fst_) : Prop := {
  J_sorted : ssorted (g_set (fs_group s));
  J_part : g_part (fs_group s) = k;
  J_cell : forall j, In j (g_set (fs_group s)) ->
             inslab p j /\ T j = false /\ W j = false /\ fs_visited s j = true /\ ereach p root j;
  J_vis : forall j, fs_visited s j = true -> W j = true \/ In j (g_set (fs_group s)) \/ T j = true;
  J_old : forall j, W j = true -> fs_visited s j = true;
  J_st1 : forall j, fs_states s j = Trimmed -> T j = true;
  J_st2 : forall j, T j = true -> fs_visited s j = true -> fs_states s j = Trimmed
}.

Lemma move_ok s i d r s' : J s -> In i (g_set (fs_group s)) -> move g T P V p i d s = (r, s') ->
  J s' /\
  (forall j, fs_visited s j = true -> fs_visited s' j = true) /\
  (forall j, fs_states s j = Trimmed -> fs_states s' j = Trimmed) /\
  g_count (fs_group s') = (g_count (fs_group s) + lvote p i d)%Z /\
  (forall j, next_index g i d p = (j, Middle) -> P j d = false -> fs_visited s' j = true) /\
  match r with
  | None => g_set (fs_group s') = g_set (fs_group s)
  | Some n => ~ In n (g_set (fs_group s)) /\ g_set (fs_group s') = set_insert n (g_set (fs_group s))
  end.
Proof.
  intros HJ Hi. unfold move, lvote.
  destruct (next_index g i d p) as [n inf] eqn:En.
  destruct inf.
  2,3: intros E; injection E as <- <-; split; [assumption|]; split; [auto|]; split; [auto|]; split; [lia|]; split; [intros j E; discriminate | reflexivity].
  destruct (P n d) eqn:EP.
  { intros E; injection E as <- <-. split; [|split; [auto|split; [auto|split; [simpl; lia|split; [|reflexivity]]]]].
    - destruct HJ; constructor; simpl; auto.
    - intros j E. injection E as <-. congruence. }
  destruct (fs_visited s n) eqn:Ev.
  { intros E; injection E as <- <-. split; [assumption|split; [auto|split; [auto|split; [lia|split; [|reflexivity]]]]].
    intros j E. injection E as <-. auto. }
  assert (Hsl : inslab p n).
  { eapply next_inslab; [exact Hp | | exact En]. apply HJ; assumption. }
  destruct (T n) eqn:ET.
  - intros E; injection E as <- <-. cbn [fs_visited fs_states fs_group]. split; [|split; [|split; [|split; [lia|split; [|reflexivity]]]]].
    + destruct HJ as [A1 A2 A3 A4 A5 A6 A7]. constructor; cbn [fs_visited fs_states fs_group]; auto.
      * intros j Hj. destruct (A3 j Hj) as (B1 & B2 & B3 & B4 & B5). repeat split; auto; try apply B1.
        apply upd_true; auto.
      * intros j Hj. apply upd_true in Hj. destruct Hj as [->|Hj]; auto.
      * intros j Hj. apply upd_true; auto.
      * intros j Hj. unfold upd in Hj. destruct (Nat.eqb_spec j n); [subst; assumption | auto].
      * intros j Hj Hv. unfold upd. destruct (Nat.eqb_spec j n) as [->|Hne]; [reflexivity|].
        apply A7; [assumption|]. apply upd_true in Hv. destruct Hv; [contradiction|assumption].
    + intros j Hj. apply upd_true; auto.
    + intros j Hj. unfold upd. destruct (Nat.eqb_spec j n); auto.
    + intros j E _. injection E as <-. apply upd_true; auto.
  - assert (Hni : ~ In n (g_set (fs_group s))).
    { intros Hin. destruct (J_cell s HJ n Hin) as (_ & _ & _ & Hv & _). congruence. }
    intros E; injection E as <- <-. cbn [fs_visited fs_states fs_group g_set g_count].
    split; [|split; [|split; [auto|split; [lia|split; [|split; [assumption|reflexivity]]]]]].
    + destruct HJ as [A1 A2 A3 A4 A5 A6 A7]. constructor; cbn [fs_visited fs_states fs_group g_set g_part]; auto.
      * apply set_insert_sorted; assumption.
      * intros j Hj. rewrite set_insert_In in Hj. destruct Hj as [->|Hj].
        -- split; [assumption|]. split; [assumption|]. split.
           { destruct (W n) eqn:EW; [|reflexivity]. apply A5 in EW. congruence. }
           split; [apply upd_true; auto|].
           apply rt_trans with i; [apply (A3 i Hi)|]. apply rt_step. exists d. auto.
        -- destruct (A3 j Hj) as (B1 & B2 & B3 & B4 & B5). repeat split; auto; try apply B1. apply upd_true; auto.
      * intros j Hj. rewrite set_insert_In. apply upd_true in Hj. destruct Hj as [->|Hj]; [auto|].
        destruct (A4 j Hj) as [?|[?|?]]; auto.
      * intros j Hj. apply upd_true; auto.
      * intros j Hj Hv. apply A7; [assumption|]. apply upd_true in Hv. destruct Hv; [congruence|assumption].
    + intros j Hj. apply upd_true; auto.
    + intros j E _. injection E as <-. apply upd_true; auto.
Qed.

Lemma moves_ok ds : forall s i new s', J s -> In i (g_set (fs_group s)) -> moves g T P V p i ds s = (new, s') ->
  J s' /\
  (forall j, fs_visited s j = true -> fs_visited s' j = true) /\
  (forall j, fs_states s j = Trimmed -> fs_states s' j = Trimmed) /\
  g_count (fs_group s') = (g_count (fs_group s) + dsum (lvote p i) ds)%Z /\
  (forall d j, In d ds -> next_index g i d p = (j, Middle) -> P j d = false -> fs_visited s' j = true) /\
  NoDup new /\ (forall j, In j new -> ~ In j (g_set (fs_group s))) /\
  (forall j, In j (g_set (fs_group s')) <-> In j new \/ In j (g_set (fs_group s))).
Proof.
  induction ds as [|d ds IH]; intros s i new s' HJ Hi; simpl.
  - intros E; injection E as <- <-. split; [assumption|]. repeat split; auto; try lia; try constructor; simpl; try contradiction; tauto.
  - destruct (move g T P V p i d s) as [r s1] eqn:E1. destruct (moves g T P V p i ds s1) as [rs s2] eqn:E2.
    destruct (move_ok s i d r s1 HJ Hi E1) as (J1 & M1 & S1 & C1 & N1 & R1).
    assert (Hi1 : In i (g_set (fs_group s1))).
    { destruct r; [destruct R1 as [_ ->]; rewrite set_insert_In; auto | rewrite R1; assumption]. }
    destruct (IH s1 i rs s2 J1 Hi1 E2) as (J2 & M2 & S2 & C2 & N2 & D2 & X2 & I2).
    intros E; injection E as <- <-.
    split; [assumption|]. split; [auto|]. split; [auto|]. split; [lia|]. split.
    { intros d' j [<-|Hd] En EP; [apply M2; eauto | eauto]. }
    destruct r as [n|].
    + destruct R1 as [R1 R1']. split; [|split].
      * constructor; [|assumption]. intros Hn. apply (X2 n Hn). rewrite R1', set_insert_In. auto.
      * intros j [<-|Hj]; [assumption|]. intros Hin. apply (X2 j Hj). rewrite R1', set_insert_In. auto.
      * intros j. rewrite I2, R1', set_insert_In. simpl. intuition.
    + split; [assumption|]. split; [intros j Hj; rewrite <- R1; auto|]. intros j. rewrite I2, R1. reflexivity.
Qed.

Definition closed_at (s : fst_) (j : nat) : Prop :=
  forall d n, next_index g j d p = (n, Middle) -> P n d = false -> fs_visited s n = true.

Lemma In_directions d : In d directions.
Proof. destruct d; simpl; auto 7. Qed.

Lemma NoDup_bounded l n : NoDup l -> (forall x, In x l -> x < n) -> length l <= n.
Proof.
  intros Hn Hb. rewrite <- (seq_length n 0). apply NoDup_incl_length; [assumption|].
  intros x Hx. rewrite in_seq. specialize (Hb x Hx). lia.
Qed.

Lemma fill_loop_ok : forall fuel stack s, J s ->
  NoDup stack -> incl stack (g_set (fs_group s)) ->
  (forall j, In j (g_set (fs_group s)) -> ~ In j stack -> closed_at s j) ->
  (g_count (fs_group s) + zsum (lvotes p) stack = zsum (lvotes p) (g_set (fs_group s)))%Z ->
  num_elements g + length stack < fuel + length (g_set (fs_group s)) ->
  exists s', fill_loop g T P V fuel p stack s = Some s' /\ J s' /\
    (forall j, fs_visited s j = true -> fs_visited s' j = true) /\
    (forall j, fs_states s j = Trimmed -> fs_states s' j = Trimmed) /\
    incl (g_set (fs_group s)) (g_set (fs_group s')) /\
    (forall j, In j (g_set (fs_group s')) -> closed_at s' j) /\
    g_count (fs_group s') = zsum (lvotes p) (g_set (fs_group s')).
Proof.
  induction fuel as [|fuel IH]; intros stack s HJ Hn Hi Hc Hv Hf.
  - exfalso. assert (length (g_set (fs_group s)) <= num_elements g); [|lia].
    apply NoDup_bounded; [apply ssorted_NoDup, HJ|]. intros x Hx. apply HJ; assumption.
  - destruct stack as [|i stack].
    + exists s. split; [reflexivity|]. split; [assumption|]. split; [auto|]. split; [auto|].
      split; [apply incl_refl|]. split; [intros j Hj; apply Hc; [assumption|intros []]|]. simpl in Hv. lia.
    + cbn [fill_loop]. destruct (moves g T P V p i directions s) as [new s1] eqn:E1.
      assert (Hin : In i (g_set (fs_group s))) by (apply Hi; left; reflexivity).
      destruct (moves_ok directions s i new s1 HJ Hin E1) as (J1 & M1 & S1 & C1 & N1 & D1 & X1 & I1).
      inversion Hn as [|? ? Hni Hn']; subst.
      assert (Pm : Permutation (g_set (fs_group s1)) (new ++ g_set (fs_group s))).
      { apply NoDup_Permutation; [apply ssorted_NoDup, J1 | |].
        - apply NoDup_app_iff. split; [assumption|]. split; [apply ssorted_NoDup, HJ | assumption].
        - intros x. rewrite I1, in_app_iff. reflexivity. }
      destruct (IH (rev new ++ stack) s1) as (s' & F & J' & M' & S' & I' & C' & V'); auto.
      * apply NoDup_app_iff. split; [apply NoDup_rev; assumption|]. split; [assumption|].
        intros x Hx Hs. apply in_rev in Hx. apply (X1 x Hx). apply Hi. right; assumption.
      * intros x Hx. apply in_app_iff in Hx. apply I1. destruct Hx as [Hx|Hx]; [left; apply in_rev; assumption | right; apply Hi; right; assumption].
      * intros j Hj Hnj. rewrite in_app_iff, <- in_rev in Hnj. apply I1 in Hj.
        destruct Hj as [Hj|Hj]; [tauto|].
        destruct (Nat.eq_dec j i) as [->|Hne].
        -- intros d n En EP. eapply N1; eauto using In_directions.
        -- intros d n En EP. apply M1. eapply Hc; eauto. intros [->|?]; tauto.
      * rewrite (zsum_perm _ _ _ Pm), !zsum_app, zsum_rev, C1. simpl in Hv. fold (lvotes p i). lia.
      * apply Permutation_length in Pm. rewrite app_length in *. rewrite rev_length. rewrite Pm. simpl in Hf. lia.
      * exists s'. split; [exact F|]. split; [assumption|]. split; [auto|]. split; [auto|]. split; [|auto].
        intros x Hx. apply I'. apply I1. auto.
Qed.
End Fill.

(** ** all cells of one slab *)
Record slab_group (p : part) (k : nat) (gr : group) : Prop := {
  sg_sorted : ssorted (g_set gr);
  sg_nonempty : g_set gr <> [];
  sg_part : g_part gr = k;
  sg_cell : forall j, In j (g_set gr) -> inslab p j /\ T j = false;
  sg_count : g_count gr = zsum (lvotes p) (g_set gr);
  sg_conn : exists r, In r (g_set gr) /\ forall j, In j (g_set gr) -> ereach p r j;
  sg_closed : symmetric_faces g T P -> forall i j, In i (g_set gr) -> estep p i j -> In j (g_set gr)
}.

Record K (p : part) (k : nat) (vis : nat -> bool) (st : nat -> istate) (G : list group) : Prop := {
  K_vis : forall j, vis j = true -> T j = true \/ exists gr, In gr G /\ In j (g_set gr);
  K_grp : forall gr, In gr G -> slab_group p k gr;
  K_in : forall gr j, In gr G -> In j (g_set gr) -> vis j = true;
  K_closed : forall j, T j = false -> vis j = true -> forall d n, next_index g j d p = (n, Middle) -> P n d = false -> vis n = true;
  K_disj : NoDup (concat (map g_set G));
  K_st1 : forall j, st j = Trimmed -> T j = true;
  K_st2 : forall j, T j = true -> vis j = true -> st j = Trimmed
}.

Lemma estep_sym p : part_ok g p -> symmetric_faces g T P -> forall i j, inslab p i -> T i = false -> estep p i j -> estep p j i.
Proof.
  intros Hp Hs i j Hi Ti (d & En & EP & Tj).
  pose proof Hi as (Hib & Hbox).
  assert (E2 : next_index g (vec_of g (mat_of g i)) d p = (j, Middle)) by (rewrite vec_of_mat_of; assumption).
  destruct (proj1 (step_middle_iff g d p (mat_of g i) j Hp Hbox) E2) as (c' & Hn & Hb & Ej).
  assert (Hc' : in_grid g c') by (eapply in_box_in_grid; eauto).
  assert (Hnb : nb g d i j).
  { split; [assumption|]. subst j. split; [apply vec_of_bound; assumption|]. rewrite mat_of_vec_of; assumption. }
  exists (reverse_dir d). split; [|split; [|assumption]].
  - rewrite <- (vec_of_mat_of g i Hg).
    apply (step_reverse g d p (mat_of g i) j Middle Hp Hbox E2). discriminate.
  - rewrite <- (Hs d i j Hnb Ti Tj). assumption.
Qed.

Lemma fill_ok p k vis st G i : part_ok g p -> K p k vis st G -> inslab p i -> vis i = false ->
  exists s, fill g T P V p k i vis st = Some s /\
    K p k (fs_visited s) (fs_states s) (match g_set (fs_group s) with [] => G | _ => G ++ [fs_group s] end) /\
    (forall j, vis j = true -> fs_visited s j = true) /\ fs_visited s i = true /\
    (forall j, st j = Trimmed -> fs_states s j = Trimmed).
Proof.
  intros Hp HK Hi Hv. unfold fill. destruct (T i) eqn:ET.
  - eexists; split; [reflexivity|]. cbn [fs_visited fs_states fs_group g_set].
    split; [|split; [|split]].
    + destruct HK as [A1 A2 A3 A4 A5 A6 A7]. constructor; auto.
      * intros j Hj. apply upd_true in Hj. destruct Hj as [->|Hj]; auto.
      * intros gr j Hgr Hj. apply upd_true; right. eauto.
      * intros j Tj Hj d n En EP. apply upd_true in Hj. destruct Hj as [->|Hj]; [congruence|].
        apply upd_true; right. eauto.
      * intros j Hj. unfold upd in Hj. destruct (Nat.eqb_spec j i); [subst; assumption|auto].
      * intros j Tj Hj. unfold upd. destruct (Nat.eqb_spec j i); [reflexivity|]. apply A7; [assumption|].
        apply upd_true in Hj. destruct Hj; [contradiction|assumption].
    + intros j Hj. apply upd_true; auto.
    + apply upd_true; auto.
    + intros j Hj. unfold upd. destruct (Nat.eqb_spec j i); auto.
  - set (s0 := FS (upd vis i true) st (Group k [i] 0%Z)).
    assert (J0 : J p k i vis s0).
    { destruct HK as [A1 A2 A3 A4 A5 A6 A7]. constructor; cbn.
      - repeat constructor.
      - reflexivity.
      - intros j [<-|[]]. split; [assumption|]. split; [assumption|]. split; [assumption|]. split; [apply upd_true; auto|]. apply rt_refl.
      - intros j Hj. apply upd_true in Hj. destruct Hj as [->|Hj]; auto.
      - intros j Hj. apply upd_true; auto.
      - assumption.
      - intros j Tj Hj. apply A7; [assumption|]. apply upd_true in Hj. destruct Hj; [congruence|assumption]. }
    destruct (fill_loop_ok p Hp k i vis (S (num_elements g)) [i] s0 J0) as (s & F & J' & M & S' & I & C & Vt).
    + repeat constructor; simpl; tauto.
    + intros x Hx. exact Hx.
    + intros j Hj Hn. exfalso. apply Hn. exact Hj.
    + cbn. lia.
    + cbn. lia.
    + exists s. split; [exact F|].
      assert (Hin : In i (g_set (fs_group s))) by (apply I; left; reflexivity).
      assert (E : match g_set (fs_group s) with [] => G | _ => G ++ [fs_group s] end = G ++ [fs_group s]).
      { destruct (g_set (fs_group s)); [contradiction|reflexivity]. }
      rewrite E. clear E.
      split; [|split; [|split]].
      * destruct HK as [A1 A2 A3 A4 A5 A6 A7]. destruct J' as [B1 B2 B3 B4 B5 B6 B7].
        assert (SG : slab_group p k (fs_group s)).
        { constructor; auto.
          - intros E. rewrite E in Hin. contradiction.
          - intros j Hj. destruct (B3 j Hj) as (? & ? & _). auto.
          - exists i. split; [assumption|]. intros j Hj. apply B3; assumption.
          - intros Hs a b Ha Hab. pose proof Hab as (d & En & EP & Tb).
            assert (Hvb : fs_visited s b = true) by (apply (C a Ha d b En EP)).
            destruct (B4 b Hvb) as [HW|[?|?]]; [|assumption|congruence]. exfalso.
            destruct (B3 a Ha) as (Ia & Ta & Wa & _).
            destruct (estep_sym p Hp Hs a b Ia Ta Hab) as (d' & En' & EP' & _).
            rewrite (A4 b Tb HW d' a En' EP') in Wa. discriminate. }
        constructor; auto.
        -- intros j Hj. destruct (B4 j Hj) as [HW|[Hj'|HT]]; [| right; exists (fs_group s); rewrite in_app_iff; simpl; auto | auto].
           destruct (A1 j HW) as [?|(gr & Hgr & Hj')]; [auto|]. right. exists gr. rewrite in_app_iff. auto.
        -- intros gr Hgr. apply in_app_iff in Hgr. destruct Hgr as [Hgr|[<-|[]]]; auto.
        -- intros gr j Hgr Hj. apply in_app_iff in Hgr. destruct Hgr as [Hgr|[<-|[]]]; [eauto|]. apply B3; assumption.
        -- intros j Tj Hj d n En EP. destruct (B4 j Hj) as [HW|[Hj'|HT]]; [|apply (C j Hj' d n En EP)|congruence].
           apply B5. eapply A4; eauto.
        -- rewrite map_app, concat_app. simpl. rewrite app_nil_r. apply NoDup_app_iff.
           split; [assumption|]. split; [apply ssorted_NoDup; assumption|].
           intros x Hx Hx'. destruct (B3 x Hx') as (_ & _ & Wx & _).
           apply in_concat in Hx. destruct Hx as (l & Hl & Hx). apply in_map_iff in Hl. destruct Hl as (gr & <- & Hgr).
           rewrite (A3 gr x Hgr Hx) in Wx. discriminate.
      * intros j Hj. apply M. cbn. apply upd_true; auto.
      * apply M. cbn. apply upd_true; auto.
      * intros j Hj. apply S'. exact Hj.
Qed.

Lemma fill_cells_ok p k : part_ok g p -> forall cells vis st G0 G,
  (forall j, In j cells -> inslab p j) -> K p k vis st G ->
  exists st' G', fill_cells g T P V p k cells vis st (G0 ++ G) = Some (st', G0 ++ G') /\
    exists vis', K p k vis' st' G' /\ (forall j, In j cells -> vis' j = true) /\
                 (forall j, vis j = true -> vis' j = true) /\ (forall j, st j = Trimmed -> st' j = Trimmed).
Proof.
  intros Hp. induction cells as [|i cells IH]; intros vis st G0 G Hc HK; simpl.
  - exists st, G. split; [reflexivity|]. exists vis. split; [assumption|]. split; [contradiction|]. auto.
  - destruct (vis i) eqn:Ev.
    + destruct (IH vis st G0 G) as (st' & G' & F & vis' & K' & A & B & C); [intros j Hj; apply Hc; right; assumption|assumption|].
      exists st', G'. split; [exact F|]. exists vis'. split; [assumption|]. split; [|auto].
      intros j [<-|Hj]; auto.
    + destruct (fill_ok p k vis st G i Hp HK) as (s & F & K' & M & Mi & S'); [apply Hc; left; reflexivity|assumption|].
      rewrite F.
      assert (E : match g_set (fs_group s) with [] => G0 ++ G | _ => (G0 ++ G) ++ [fs_group s] end =
                  G0 ++ match g_set (fs_group s) with [] => G | _ => G ++ [fs_group s] end).
      { destruct (g_set (fs_group s)); [reflexivity|]. rewrite app_assoc. reflexivity. }
      rewrite E.
      destruct (IH _ _ G0 _ (fun j Hj => Hc j (or_intror Hj)) K') as (st' & G' & F' & vis' & K'' & A & B & C).
      exists st', G'. split; [exact F'|]. exists vis'. split; [assumption|]. split; [|split; auto].
      intros j [<-|Hj]; auto.
Qed.

Lemma in_range a b x : In x (range a b) <-> a <= x <= b.
Proof. unfold range. rewrite in_seq. lia. Qed.

Lemma in_slab_cells p j : part_ok g p -> (In j (slab_cells g p) <-> inslab p j).
Proof.
  intros Hp. unfold slab_cells. rewrite in_flat_map. split.
  - intros (x & Hx & H). rewrite in_flat_map in H. destruct H as (y & Hy & H). rewrite in_map_iff in H.
    destruct H as (z & <- & Hz). rewrite in_range in *.
    assert (Hb : in_box p (C3 x y z)) by (unfold in_box; simpl; lia).
    assert (in_grid g (C3 x y z)) by (eapply in_box_in_grid; eauto).
    split; [apply vec_of_bound; assumption|]. rewrite mat_of_vec_of; assumption.
  - intros (Hj & Hb & Hb' & Hb''). exists (cx (mat_of g j)). rewrite in_range. split; [lia|].
    rewrite in_flat_map. exists (cy (mat_of g j)). rewrite in_range. split; [lia|].
    rewrite in_map_iff. exists (cz (mat_of g j)). rewrite in_range. split; [|lia].
    destruct (mat_of g j) as [x y z] eqn:E. simpl. rewrite <- E. apply vec_of_mat_of. assumption.
Qed.

(** ** all slabs *)
(** [GS] after the slabs [ps] (first slab index 0) have been filled *)
Record groups_ok (ps : list part) (GS : list group) (st : nat -> istate) : Prop := {
  G_grp : forall gr, In gr GS -> exists p, nth_error ps (g_part gr) = Some p /\ slab_group p (g_part gr) gr;
  G_disj : NoDup (concat (map g_set GS));
  G_cover : forall p j, In p ps -> inslab p j -> T j = false -> exists gr, In gr GS /\ In j (g_set gr);
  G_st1 : forall j, st j = Trimmed -> T j = true;
  G_st2 : forall p j, In p ps -> inslab p j -> T j = true -> st j = Trimmed
}.

Lemma nth_error_app_left {B} (l l' : list B) k x : nth_error l k = Some x -> nth_error (l ++ l') k = Some x.
Proof. intros H. rewrite nth_error_app1; [assumption|]. apply nth_error_Some. congruence. Qed.

Lemma fill_slabs_ok : forall ps ps0 st GS,
  (forall p, In p (ps0 ++ ps) -> part_ok g p) ->
  (forall k k' p p' c, nth_error (ps0 ++ ps) k = Some p -> nth_error (ps0 ++ ps) k' = Some p' ->
       in_box p c -> in_box p' c -> k = k') ->
  groups_ok ps0 GS st ->
  exists st' GS', fill_slabs g T P V (length ps0) ps st GS = Some (st', GS') /\ groups_ok (ps0 ++ ps) GS' st'.
Proof.
  induction ps as [|p ps IH]; intros ps0 st GS Hok Hd HG; simpl.
  - exists st, GS. split; [reflexivity|]. rewrite app_nil_r. assumption.
  - assert (Hp : part_ok g p) by (apply Hok; rewrite in_app_iff; simpl; auto).
    assert (K0 : K p (length ps0) (fun _ => false) st []).
    { destruct HG as [A1 A2 A3 A4 A5]. constructor; simpl; auto; try discriminate; try contradiction; try constructor.
      }
    destruct (fill_cells_ok p (length ps0) Hp (slab_cells g p) (fun _ => false) st GS []) as (st1 & G1 & F & vis' & K1 & A & _ & C).
    { intros j Hj. apply in_slab_cells; assumption. }
    { exact K0. }
    rewrite app_nil_r in F. rewrite F.
    assert (HG1 : groups_ok (ps0 ++ [p]) (GS ++ G1) st1).
    { destruct HG as [A1 A2 A3 A4 A5]. destruct K1 as [B1 B2 B3 B4 B5 B6 B7]. constructor.
      - intros gr Hgr. apply in_app_iff in Hgr. destruct Hgr as [Hgr|Hgr].
        + destruct (A1 gr Hgr) as (q & Hq & Hs). exists q. split; [apply nth_error_app_left; assumption|assumption].
        + exists p. specialize (B2 gr Hgr). rewrite (sg_part _ _ _ B2). split; [|assumption].
          rewrite nth_error_app2 by lia. rewrite Nat.sub_diag. reflexivity.
      - rewrite map_app, concat_app. apply NoDup_app_iff. split; [assumption|]. split; [assumption|].
        intros x Hx Hx'. apply in_concat in Hx, Hx'. destruct Hx as (l & Hl & Hx), Hx' as (l' & Hl' & Hx').
        apply in_map_iff in Hl, Hl'. destruct Hl as (gr & <- & Hgr), Hl' as (gr' & <- & Hgr').
        destruct (A1 gr Hgr) as (q & Hq & Hs). destruct (sg_cell _ _ _ Hs x Hx) as ((_ & Hb) & _).
        destruct (sg_cell _ _ _ (B2 gr' Hgr') x Hx') as ((_ & Hb') & _).
        assert (g_part gr = length ps0).
        { eapply Hd; [| | exact Hb | exact Hb'].
          - apply nth_error_app_left; exact Hq.
          - rewrite nth_error_app2 by lia. rewrite Nat.sub_diag. reflexivity. }
        assert (g_part gr < length ps0) by (apply nth_error_Some; congruence). lia.
      - intros q j Hq Hj Tj. apply in_app_iff in Hq. destruct Hq as [Hq|[<-|[]]].
        + destruct (A3 q j Hq Hj Tj) as (gr & Hgr & H). exists gr. rewrite in_app_iff. auto.
        + destruct (B1 j) as [?|(gr & Hgr & H)]; [apply A; apply in_slab_cells; assumption|congruence|].
          exists gr. rewrite in_app_iff. auto.
      - exact B6.
      - intros q j Hq Hj Tj. apply in_app_iff in Hq. destruct Hq as [Hq|[<-|[]]].
        + apply C. eapply A5; eauto.
        + apply B7; [assumption|]. apply A. apply in_slab_cells; assumption. }
    assert (Ep : ps0 ++ p :: ps = (ps0 ++ [p]) ++ ps) by (rewrite <- app_assoc; reflexivity).
    rewrite Ep in *.
    destruct (IH (ps0 ++ [p]) st1 (GS ++ G1) Hok Hd HG1) as (st' & GS' & F' & HG').
    rewrite app_length in F'. simpl in F'. exists st', GS'. split; assumption.
Qed.

Lemma fill_all_ok threads : 0 < threads ->
  exists st GS, fill_all g T P V threads = Some (st, GS) /\ groups_ok (partitions g threads) GS st /\
    (forall j, j < num_elements g -> T j = true -> st j = Trimmed) /\
    (forall j, j < num_elements g -> T j = false -> exists gr, In gr GS /\ In j (g_set gr)).
Proof.
  intros Ht. unfold fill_all.
  destruct (fill_slabs_ok (partitions g threads) [] (fun _ => Outside) []) as (st & GS & F & HG).
  - simpl. intros p Hp. apply In_nth_error in Hp. destruct Hp as [k Hp]. eapply partitions_ok; eauto.
  - simpl. intros k k' p p' c Hk Hk' Hc Hc'.
    assert (Hgc : in_grid g c) by (eapply in_box_in_grid; [eapply partitions_ok; [exact Hg | exact Hk] | exact Hc]).
    destruct (partitions_cover g threads c Hg Ht Hgc) as (k0 & p0 & _ & _ & U).
    rewrite (U k p Hk Hc), (U k' p' Hk' Hc'). reflexivity.
  - constructor; simpl; try contradiction; try discriminate; constructor.
  - simpl in *. exists st, GS. split; [exact F|]. split; [exact HG|].
    assert (Hc : forall j, j < num_elements g -> exists p, In p (partitions g threads) /\ inslab p j).
    { intros j Hj. destruct (partitions_cover g threads (mat_of g j) Hg Ht (mat_of_in_grid g j Hg Hj)) as (k & p & Hk & Hb & _).
      exists p. split; [eapply nth_error_In; eauto|]. split; assumption. }
    split; intros j Hj Tj; destruct (Hc j Hj) as (p & Hp & Hs).
    + eapply (G_st2 _ _ _ HG); eauto.
    + eapply (G_cover _ _ _ HG); eauto.
Qed.
End F.
